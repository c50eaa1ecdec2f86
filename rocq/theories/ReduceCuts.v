(** Where [reduce] cuts a curve, in exact arithmetic: at all places where it is level or upright. *)
From Coq Require Import List ZArith Bool Reals Lra Lia Arith.
From Verif Require Import Num RealNum PathModel SegOps Bezier PathSpec GeomSpec BezierProofs ReduceProofs.
Import ListNotations.
Local Open Scope R_scope.

(** *** covers *)
Lemma covers_app_inv P c a b l r : covers P c a b (l ++ r) -> exists m, covers P c a m l /\ covers P c m b r.
Proof.
  revert a. induction l as [|s l IH]; intros a H; cbn in H; [exists a; split; [constructor|exact H]|].
  inversion H as [|? m ? ? ? Hp HP Hc]; subst. destruct (IH _ Hc) as (x & H1 & H2). exists x. split; [econstructor; eauto|exact H2].
Qed.
Lemma covers_end P c a m m' l : covers P c a m l -> covers P c a m' l -> m = m'.
Proof.
  intros H. revert m'. induction H as [a|a x b s r Hp HP Hc IH]; intros m' H'; inversion H' as [|? x' ? ? ? Hp' HP' Hc']; subst; [reflexivity|].
  apply IH. destruct Hp as (_ & E & _). destruct Hp' as (_ & E' & _). rewrite E in E'. injection E' as ->. exact Hc'.
Qed.
Lemma covers_pos P c a b l : covers P c a b l -> l <> [] -> a < b.
Proof. intros H. destruct H as [a|a m b s r (_ & _ & Hp & _) _ Hc]; [congruence|]. intros _. apply covers_le in Hc. lra. Qed.
Lemma covers_imp (P Q : crv RNum -> Prop) c a b l : (forall d, P d -> Q d) -> covers P c a b l -> covers Q c a b l.
Proof. intros H. induction 1; econstructor; eauto. Qed.

(** *** the parameters of the cuts *)
Lemma insertF_has {N : Num} (x : T N) l y : In y (insertF x l) <-> y = x \/ In y l.
Proof. induction l as [|z l IH]; cbn [insertF]; [cbn; intuition|]. destruct (ltb z x); cbn [In]; [rewrite IH|]; intuition. Qed.
Lemma sortF_has {N : Num} (l : list (T N)) y : In y (sortF l) <-> In y l.
Proof. induction l as [|x l IH]; cbn [sortF fold_right]; [tauto|]. fold (sortF l). rewrite insertF_has, IH. cbn. intuition. Qed.
Lemma reduceParams_has (c : crv RNum) t : In (Fin t : T RNum) (extremaX c) \/ In (Fin t : T RNum) (extremaY c) -> In (Fin t : T RNum) (reduceParams c).
Proof.
  intros H. unfold reduceParams. apply sortF_has. unfold Float64ArrayDeDup.
  destruct (fin_list (extremaX c)) as (lx & Ex & Hx); [intros y Hy; apply (extrema_fin c); auto|]. destruct (fin_list (extremaY c)) as (ly & Ey & Hy); [intros y Hy; apply (extrema_fin c); auto|].
  assert (E : (extremaX c ++ extremaY c ++ [zero; one])%list = map Fin (lx ++ ly ++ [0; 1])%list) by (rewrite Ex, Ey, !map_app; reflexivity). rewrite E. change (@nil (T RNum)) with (map Fin []).
  destruct (dedup_has (lx ++ ly ++ [0; 1])%list [] t) as [[]|K]; [|exact K]. rewrite Ex, Ey in H. rewrite !in_app_iff. destruct H as [H|H]; apply In_map_Fin in H; auto.
Qed.
(** the speeds of the curve along the axes *)
Definition speedX (c : crv RNum) (t : R) : R := dquad (3 * (X (c_cs c) - X (c_s c))) (3 * (X (c_ce c) - X (c_cs c))) (3 * (X (c_e c) - X (c_ce c))) t.
Definition speedY (c : crv RNum) (t : R) : R := dquad (3 * (Y (c_cs c) - Y (c_s c))) (3 * (Y (c_ce c) - Y (c_cs c))) (3 * (Y (c_e c) - Y (c_ce c))) t.
Lemma speedX_lim c t : derivable_pt_lim (curveX c) t (speedX c t). Proof. apply cubic_derivable. Qed.
Lemma speedY_lim c t : derivable_pt_lim (curveY c) t (speedY c t). Proof. apply cubic_derivable. Qed.
(** all on one line *)
Definition straight (c : crv RNum) : Prop := exists a b e, (a <> 0 \/ b <> 0) /\ forall t, a * curveX c t + b * curveY c t = e.
Lemma straightX c : ~ straight c -> ~ (3 * (X (c_cs c) - X (c_s c)) = 0 /\ 3 * (X (c_ce c) - X (c_cs c)) = 0 /\ 3 * (X (c_e c) - X (c_ce c)) = 0).
Proof. intros H (A & B & C). apply H. exists 1, 0, (X (c_s c)). split; [lra|]. intros t. unfold curveX, cubic. replace (X (c_e c)) with (X (c_s c)) by lra. replace (X (c_ce c)) with (X (c_s c)) by lra. replace (X (c_cs c)) with (X (c_s c)) by lra. ring. Qed.
Lemma straightY c : ~ straight c -> ~ (3 * (Y (c_cs c) - Y (c_s c)) = 0 /\ 3 * (Y (c_ce c) - Y (c_cs c)) = 0 /\ 3 * (Y (c_e c) - Y (c_ce c)) = 0).
Proof. intros H (A & B & C). apply H. exists 0, 1, (Y (c_s c)). split; [lra|]. intros t. unfold curveY, cubic. replace (Y (c_e c)) with (Y (c_s c)) by lra. replace (Y (c_ce c)) with (Y (c_s c)) by lra. replace (Y (c_cs c)) with (Y (c_s c)) by lra. ring. Qed.
Lemma still_param c t : finiteCrv c -> ~ straight c -> 0 <= t <= 1 -> speedX c t = 0 \/ speedY c t = 0 -> In (Fin t : T RNum) (reduceParams c).
Proof.
  intros F NS Ht H. apply reduceParams_has. destruct F as (F1 & F2 & F3 & F4). destruct H as [H|H]; [left|right].
  - unfold extremaX, derive2, derive1, dpt, three. cbn [px py]. rewrite !(px_fin _ F1), !(px_fin _ F2), !(px_fin _ F3), !(px_fin _ F4). fin. unfold extrema1. apply filter_In. split; [|apply in01_true; auto]. apply in_app_iff. left. apply droots3_complete; [exact H|]. apply straightX. exact NS.
  - unfold extremaY, derive2, derive1, dpt, three. cbn [px py]. rewrite !(py_fin _ F1), !(py_fin _ F2), !(py_fin _ F3), !(py_fin _ F4). fin. unfold extrema1. apply filter_In. split; [|apply in01_true; auto]. apply in_app_iff. left. apply droots3_complete; [exact H|]. apply straightY. exact NS.
Qed.

(** *** cuts of the pieces *)
Lemma splitBetween_cut c : finiteCrv c -> forall ts t u, incr (t :: ts) -> 0 <= t -> (forall x, In x ts -> x <= 1) -> In u (t :: ts) ->
  exists A B, splitBetween c (Fin t : T RNum) (map Fin ts : list (T RNum)) = A ++ B /\ covers (fun _ => True) c t u A /\ covers (fun _ => True) c u (last (t :: ts) 0) B.
Proof.
  intros F. induction ts as [|x ts IH]; intros t u HI H0 H1 Hu.
  - destruct Hu as [<-|[]]. exists [], []. repeat split; constructor.
  - inversion HI as [|? ? HI' HL]; subst. assert (t < x) by (apply HL; left; reflexivity). destruct Hu as [<-|Hu].
    + exists [], (splitBetween c (Fin t : T RNum) (map Fin (x :: ts) : list (T RNum))). split; [reflexivity|]. split; [constructor|]. apply splitBetween_covers; assumption.
    + assert (x <= 1) by (apply H1; left; reflexivity). destruct (IH x u HI' ltac:(lra) (fun y Hy => H1 y (or_intror Hy)) Hu) as (A & B & E & C1 & C2). cbn [map splitBetween]. rewrite E. eexists (_ :: A), B. split; [reflexivity|]. split; [|exact C2].
      apply covers_cons with (m := x); [|exact I|exact C1]. split; [reflexivity|]. split; [reflexivity|]. split; [lra|]. split; [assumption|]. cbn [cv]. apply (splitSection_spec (mkCseg c zero zero)); [exact F|lra|assumption].
Qed.
Lemma pass1_cut c u : finiteCrv c -> In (Fin u : T RNum) (reduceParams c) -> exists A B, pass1 c = A ++ B /\ covers (fun _ => True) c 0 u A /\ covers (fun _ => True) c u 1 B.
Proof.
  intros F. unfold pass1. destruct (reduceParams_spec c) as (ts & -> & HI & H0 & H1 & HR). destruct ts as [|t ts]; [destruct H0|]. cbn [map]. intros HU.
  assert (t = 0). { destruct H0 as [->|H0]; [reflexivity|]. inversion HI as [|? ? _ HL]; subst. apply HL in H0. specialize (HR t (or_introl eq_refl)). lra. } subst t.
  change (Fin 0 :: map Fin ts) with (map Fin (0 :: ts)) in HU. apply In_map_Fin in HU. destruct (splitBetween_cut c F ts 0 u HI (Rle_refl 0) (fun u Hu => proj2 (HR u (or_intror Hu))) HU) as (A & B & E & C1 & C2).
  exists A, B. split; [exact E|]. split; [exact C1|]. replace (last (0 :: ts) 0) with 1 in C2; [exact C2|]. pose proof (incr_last ts 0 0 HI 1 H1). pose proof (HR _ (last_In ts 0 0)). lra.
Qed.
Section Cuts.
Variable tr : Trig RNum.
Variable bm : BMath RNum.
Notation smooth := (fun d => simple tr bm d = true).
Lemma loop_keeps fuel c l : forall ps acc, (forall p, In p ps -> exists a b, piece c p a b) -> reduceLoop tr bm fuel ps acc = Ok l -> l <> [] -> exists r, l = acc ++ r.
Proof.
  induction ps as [|p ps IH]; intros acc HP; cbn [reduceLoop]; [intros [= ->] _; exists []; rewrite app_nil_r; reflexivity|].
  destruct (pass2 tr bm fuel p) as [[s|]| | |]; cbn [bind]; try discriminate; [|intros [= <-] C; congruence]. intros E NE. destruct (IH _ (fun q Hq => HP q (or_intror Hq)) E NE) as (r & ->). exists (s ++ r). rewrite app_assoc. reflexivity.
Qed.
Lemma loop_cut fuel c l t : forall A B acc m, covers (fun _ => True) c m t A -> covers (fun _ => True) c t 1 B -> covers smooth c 0 m acc -> reduceLoop tr bm fuel (A ++ B) acc = Ok l -> l <> [] ->
  exists l1 l2, l = l1 ++ l2 /\ covers smooth c 0 t l1.
Proof.
  induction A as [|p A IH]; intros B acc m HA HB HC; cbn [app].
  - inversion HA; subst. intros E NE. destruct (loop_keeps fuel c l B acc) with (2 := E) (3 := NE) as (r & ->); [intros p Hp; destruct (covers_in _ _ _ _ _ _ HB Hp) as (x & y & H & _); eauto|]. exists acc, r. auto.
  - cbn [reduceLoop]. inversion HA as [|? x ? ? ? Hp _ HA']; subst. destruct (pass2 tr bm fuel p) as [[s|]| | |] eqn:E2; cbn [bind]; try discriminate; [|intros [= <-] C; congruence]. destruct (pass2_spec _ _ _ _ _ _ _ _ Hp E2) as [H _].
    apply (IH B (acc ++ s) x HA' HB). eapply covers_app; eauto.
Qed.
Lemma reduce_cut fuel c l t : finiteCrv c -> reduce tr bm fuel c = Ok l -> l <> [] -> In (Fin t : T RNum) (reduceParams c) -> exists l1 l2, l = l1 ++ l2 /\ covers smooth c 0 t l1 /\ covers smooth c t 1 l2.
Proof.
  intros F E NE HT. destruct (pass1_cut c t F HT) as (A & B & EP & C1 & C2). pose proof (reduce_covers tr bm fuel c l F E NE) as CL. unfold reduce in E. rewrite EP in E.
  destruct (loop_cut fuel c l t A B [] 0 C1 C2) with (2 := E) (3 := NE) as (l1 & l2 & -> & H1); [constructor|]. destruct (covers_app_inv _ _ _ _ _ _ CL) as (m & K1 & K2). rewrite (covers_end _ _ _ _ _ _ K1 H1) in K2. exists l1, l2. auto.
Qed.
(** two cuts leave whole pieces between them *)
Lemma reduce_cuts fuel c l t1 t2 : finiteCrv c -> reduce tr bm fuel c = Ok l -> l <> [] -> In (Fin t1 : T RNum) (reduceParams c) -> In (Fin t2 : T RNum) (reduceParams c) -> t1 < t2 ->
  exists A M B, l = A ++ M ++ B /\ M <> [] /\ covers smooth c 0 t1 A /\ covers smooth c t1 t2 M /\ covers smooth c t2 1 B.
Proof.
  intros F E NE H1 H2 L. destruct (reduce_cut fuel c l t1 F E NE H1) as (A & A' & E1 & C1 & C1'). destruct (reduce_cut fuel c l t2 F E NE H2) as (B & B' & E2 & C2 & C2'). rewrite E1 in E2. symmetry in E1.
  destruct (app_eq_app _ _ _ _ E2) as (M & [[EA EB]|[EA EB]]); subst.
  - exfalso. destruct (covers_app_inv _ _ _ _ _ _ C1) as (m & K1 & K2). rewrite (covers_end _ _ _ _ _ _ K1 C2) in K2. apply covers_le in K2. lra.
  - destruct (covers_app_inv _ _ _ _ _ _ C2) as (m & K1 & K2). rewrite (covers_end _ _ _ _ _ _ K1 C1) in K2. exists A, M, B'. split; [reflexivity|]. split; [|auto]. intros ->. inversion K2; subst. lra.
Qed.
End Cuts.

(** *** crossings *)
Lemma rolle f f' u w : u < w -> (forall t, derivable_pt_lim f t (f' t)) -> f u = f w -> exists t, u < t < w /\ f' t = 0.
Proof.
  intros L D E. pose (pr := fun t (_ : u < t < w) => exist _ (f' t) (D t) : derivable_pt f t). destruct (Rolle f u w pr) as (t & P & H); auto.
  - intros x _. apply derivable_continuous_pt. exists (f' x). apply D.
  - exists t. split; [exact P|]. exact H.
Qed.
Lemma cubic_around a b c d t s : dquad (3 * (b - a)) (3 * (c - b)) (3 * (d - c)) t = 0 -> cubic a b c d s = cubic a b c d t + ((3 * (a - 2 * b + c)) + 3 * (d - 3 * c + 3 * b - a) * t) * (s - t) ^ 2 + (d - 3 * c + 3 * b - a) * (s - t) ^ 3.
Proof.
  intros H. assert (E : cubic a b c d s = cubic a b c d t + dquad (3 * (b - a)) (3 * (c - b)) (3 * (d - c)) t * (s - t) + ((3 * (a - 2 * b + c)) + 3 * (d - 3 * c + 3 * b - a) * t) * (s - t) ^ 2 + (d - 3 * c + 3 * b - a) * (s - t) ^ 3) by (unfold cubic, dquad; ring).
  rewrite E, H. ring.
Qed.
(** between the two parameters of a crossing the curve is level and upright, at different places *)
Lemma crossing_still c u w : ~ straight c -> u < w -> curveX c u = curveX c w -> curveY c u = curveY c w ->
  exists t1 t2, u < t1 /\ t1 < t2 /\ t2 < w /\ (speedX c t1 = 0 \/ speedY c t1 = 0) /\ (speedX c t2 = 0 \/ speedY c t2 = 0).
Proof.
  intros NS L EX EY. destruct (rolle (curveX c) (speedX c) u w L (speedX_lim c) EX) as (t & Ht & DX). destruct (rolle (curveY c) (speedY c) u w L (speedY_lim c) EY) as (s & Hs & DY).
  destruct (Rtotal_order t s) as [LT|[->|GT]]; [exists t, s; intuition lra| |exists s, t; intuition lra]. exfalso. apply NS. clear NS Ht.
  pose proof (fun z => cubic_around (X (c_s c)) (X (c_cs c)) (X (c_ce c)) (X (c_e c)) s z DX) as QX. pose proof (fun z => cubic_around (Y (c_s c)) (Y (c_cs c)) (Y (c_ce c)) (Y (c_e c)) s z DY) as QY.
  fold (curveX c) in QX. fold (curveY c) in QY.
  set (A2 := 3 * (X (c_s c) - 2 * X (c_cs c) + X (c_ce c)) + 3 * (X (c_e c) - 3 * X (c_ce c) + 3 * X (c_cs c) - X (c_s c)) * s) in *. set (A3 := X (c_e c) - 3 * X (c_ce c) + 3 * X (c_cs c) - X (c_s c)) in *.
  set (B2 := 3 * (Y (c_s c) - 2 * Y (c_cs c) + Y (c_ce c)) + 3 * (Y (c_e c) - 3 * Y (c_ce c) + 3 * Y (c_cs c) - Y (c_s c)) * s) in *. set (B3 := Y (c_e c) - 3 * Y (c_ce c) + 3 * Y (c_cs c) - Y (c_s c)) in *.
  change (forall z, curveX c z = curveX c s + A2 * (z - s) ^ 2 + A3 * (z - s) ^ 3) in QX. change (forall z, curveY c z = curveY c s + B2 * (z - s) ^ 2 + B3 * (z - s) ^ 3) in QY.
  set (p := u - s). set (q := w - s). assert (Hp : p < 0) by (unfold p; lra). assert (Hq : 0 < q) by (unfold q; lra).
  assert (D : p ^ 3 - q ^ 3 < 0) by (assert (0 < (- p) ^ 3) by (apply pow_lt; lra); assert (0 < q ^ 3) by (apply pow_lt; lra); nra).
  set (k := (q ^ 2 - p ^ 2) / (p ^ 3 - q ^ 3)).
  assert (EA : A3 = A2 * k). { pose proof (QX u) as K1. pose proof (QX w) as K2. fold p in K1. fold q in K2. unfold k. apply (Rmult_eq_reg_r (p ^ 3 - q ^ 3)); [|lra]. field_simplify; [|lra]. nra. }
  assert (EB : B3 = B2 * k). { pose proof (QY u) as K1. pose proof (QY w) as K2. fold p in K1. fold q in K2. unfold k. apply (Rmult_eq_reg_r (p ^ 3 - q ^ 3)); [|lra]. field_simplify; [|lra]. nra. }
  destruct (Req_dec A2 0) as [ZA|ZA].
  - exists 1, 0, (curveX c s). split; [lra|]. intros z. rewrite (QX z), EA, ZA. ring.
  - exists B2, (- A2), (B2 * curveX c s - A2 * curveY c s). split; [lra|]. intros z. rewrite (QX z), (QY z), EA, EB. ring.
Qed.
(** a function is passed where its derivative is not zero *)
Lemma passed f t D : derivable_pt_lim f t D -> D <> 0 -> forall a b, a < t < b -> (exists p, a <= p <= b /\ f p < f t) /\ (exists p, a <= p <= b /\ f t < f p).
Proof.
  intros H ND a b Hab. destruct (H (Rabs D / 2)) as (delta & Hd); [apply Rabs_pos_lt in ND; lra|]. set (h := Rmin (delta / 2) (Rmin (t - a) (b - t))).
  assert (Hh : 0 < h) by (unfold h; pose proof (cond_pos delta); apply Rmin_glb_lt; [lra|apply Rmin_glb_lt; lra]). assert (H1 : h <= delta / 2) by apply Rmin_l. assert (H2 : h <= t - a) by (unfold h; eapply Rle_trans; [apply Rmin_r|apply Rmin_l]). assert (H3 : h <= b - t) by (unfold h; eapply Rle_trans; [apply Rmin_r|apply Rmin_r]).
  pose proof (cond_pos delta) as PD. pose proof (Hd h ltac:(lra) ltac:(rewrite Rabs_right; lra)) as K1. pose proof (Hd (- h) ltac:(lra) ltac:(rewrite Rabs_Ropp, Rabs_right; lra)) as K2.
  set (q1 := (f (t + h) - f t) / h) in *. set (q2 := (f (t + - h) - f t) / - h) in *. assert (E1 : f (t + h) - f t = q1 * h) by (unfold q1; field; lra). assert (E2 : f (t + - h) - f t = - (q2 * h)) by (unfold q2; field; lra).
  apply Rabs_def2 in K1, K2. destruct (Rlt_le_dec 0 D) as [P|P].
  - rewrite (Rabs_right D) in K1, K2 by lra. assert (0 < q1 * h) by nra. assert (0 < q2 * h) by nra. split; [exists (t + - h)|exists (t + h)]; split; lra.
  - assert (D < 0) by lra. rewrite (Rabs_left D) in K1, K2 by lra. assert (q1 * h < 0) by nra. assert (q2 * h < 0) by nra. split; [exists (t + h)|exists (t + - h)]; split; lra.
Qed.
