(** Straight lines in exact arithmetic: slopes, LineIntersection and Intersect of lines (C37), Parallel (C40). *)
From Coq Require Import String List ZArith NArith Bool Lia Reals Lra Psatz.
From Verif Require Import Num RealNum PathModel DrawModel SegOps TextProofs PathSpec GeomSpec BezierProofs GeomProofs PrecisionProofs.
Import ListNotations.
Local Open Scope R_scope.

(** (x, y) is on the infinite line through (x1, y1) and (x2, y2) *)
Definition onLine (x1 y1 x2 y2 x y : R) : Prop := (x2 - x1) * (y - y1) = (y2 - y1) * (x - x1).
(** the numbers agree to n decimals, as path.PrecisionEquals decides *)
Definition agree (n : nat) (x y : R) : Prop := PrecisionEquals (N:=RNum) (Fin x) (Fin y) (Z.of_nat n) = true.

Lemma agree_close n x y : agree n x y -> Rabs (x - y) <= / 10 ^ n.
Proof. apply PrecisionEquals_close_R. Qed.
Lemma agree_refl n x : agree n x x. Proof. apply PrecisionEquals_refl. Qed.
Lemma agree_sym n x y : agree n x y -> agree n y x.
Proof. unfold agree. rewrite PrecisionEquals_sym. auto. Qed.
Lemma agree_dec n x y : {agree n x y} + {~ agree n x y}.
Proof. unfold agree. destruct (PrecisionEquals _ _ _); [left; auto|right; discriminate]. Qed.

Lemma Slope_fin x1 y1 x2 y2 : x1 <> x2 -> @Slope RNum (pnt x1 y1) (pnt x2 y2) = Fin ((y2 - y1) / (x2 - x1)).
Proof. intros H. unfold Slope. cbn [px py pnt]. fin. apply fdiv. lra. Qed.
Lemma Slope_inf x1 y1 x2 y2 : x1 = x2 -> match @Slope RNum (pnt x1 y1) (pnt x2 y2) with Fin _ => False | _ => True end.
Proof.
  intros ->. unfold Slope. cbn [px py pnt]. fin. cbn [div RNum er_div]. destruct (Reqb_spec (x2 - x2) 0); [|lra].
  destruct (Reqb _ _); auto.
Qed.
Lemma IsVertical_agree x1 y1 x2 y2 n : IsVertical (pnt x1 y1) (pnt x2 y2) (Z.of_nat n) = true <-> agree n x1 x2.
Proof. reflexivity. Qed.
Lemma EvalX_fin x1 y1 x2 y2 x : x1 <> x2 ->
  EvalX (pnt x1 y1) (pnt x2 y2) (Fin x : T RNum) = Fin ((y2 - y1) / (x2 - x1) * x + (y1 - (y2 - y1) / (x2 - x1) * x1)).
Proof. intros H. unfold EvalX, YIntercept. rewrite Slope_fin by auto. cbn [px py pnt]. fin. reflexivity. Qed.
Lemma eval_onLine x1 y1 x2 y2 x : x1 <> x2 ->
  onLine x1 y1 x2 y2 x ((y2 - y1) / (x2 - x1) * x + (y1 - (y2 - y1) / (x2 - x1) * x1)).
Proof. intros H. unfold onLine. field. lra. Qed.
Lemma onLine_eval x1 y1 x2 y2 x y : x1 <> x2 -> onLine x1 y1 x2 y2 x y ->
  y = (y2 - y1) / (x2 - x1) * x + (y1 - (y2 - y1) / (x2 - x1) * x1).
Proof.
  unfold onLine. intros H E. apply (Rmult_eq_reg_l (x2 - x1)); [|lra].
  replace ((x2 - x1) * ((y2 - y1) / (x2 - x1) * x + (y1 - (y2 - y1) / (x2 - x1) * x1)))
    with ((y2 - y1) * (x - x1) + (x2 - x1) * y1) by (field; lra). lra.
Qed.

Lemma not_agree_neq n x y : ~ agree n x y -> x <> y.
Proof. intros H E. apply H. subst. apply agree_refl. Qed.

Lemma PE_notfin_fin (a : ER) x n : match a with Fin _ => False | _ => True end ->
  PrecisionEquals (N:=RNum) a (Fin x) (Z.of_nat n) = false.
Proof.
  intros H. destruct (PrecisionEquals _ _ _) eqn:E; auto. apply PrecisionEquals_same in E. unfold same_dec in E.
  destruct a; [contradiction|cbn in E; discriminate E|cbn in E; discriminate E].
Qed.

(** the slopes of two lines agree to n decimals: numbers that agree, or both lines vertical *)
Lemma slopes_agree x1 y1 x2 y2 x3 y3 x4 y4 n :
  PrecisionEquals (@Slope RNum (pnt x1 y1) (pnt x2 y2)) (@Slope RNum (pnt x3 y3) (pnt x4 y4)) (Z.of_nat n) = true ->
  (x1 <> x2 /\ x3 <> x4 /\ agree n ((y2 - y1) / (x2 - x1)) ((y4 - y3) / (x4 - x3))) \/ (x1 = x2 /\ x3 = x4).
Proof.
  intros E. destruct (Req_dec x1 x2) as [H1|H1], (Req_dec x3 x4) as [H2|H2]; auto.
  - rewrite (Slope_fin _ _ _ _ H2), PE_notfin_fin in E; [discriminate|apply Slope_inf; auto].
  - rewrite (Slope_fin _ _ _ _ H1), PrecisionEquals_sym, PE_notfin_fin in E; [discriminate|apply Slope_inf; auto].
  - left. rewrite !Slope_fin in E by auto. auto.
Qed.
(** two lines are parallel as far as n decimals tell *)
Definition parallelTo (n : nat) (x1 y1 x2 y2 x3 y3 x4 y4 : R) : Prop :=
  (x1 <> x2 /\ x3 <> x4 /\ agree n ((y2 - y1) / (x2 - x1)) ((y4 - y3) / (x4 - x3))) \/ (agree n x1 x2 /\ agree n x3 x4).

(** the complete behaviour of LineIntersection *)
Lemma LineIntersection_cases x1 y1 x2 y2 x3 y3 x4 y4 n :
  let m1 := (y2 - y1) / (x2 - x1) in let m2 := (y4 - y3) / (x4 - x3) in
  match LineIntersection (pnt x1 y1) (pnt x2 y2) (pnt x3 y3) (pnt x4 y4) (Z.of_nat n) with
  | None => parallelTo n x1 y1 x2 y2 x3 y3 x4 y4
  | Some p =>
      ~ parallelTo n x1 y1 x2 y2 x3 y3 x4 y4 /\
      exists x y, p = pnt x y /\
      ((agree n x1 x2 /\ ~ agree n x3 x4 /\ x = x1 /\ onLine x3 y3 x4 y4 x y) \/
       (~ agree n x1 x2 /\ agree n x3 x4 /\ x = x3 /\ onLine x1 y1 x2 y2 x y) \/
       (~ agree n x1 x2 /\ ~ agree n x3 x4 /\ m1 <> m2 /\ onLine x1 y1 x2 y2 x y /\ onLine x3 y3 x4 y4 x y))
  end.
Proof.
  cbv zeta. unfold LineIntersection.
  destruct (PrecisionEquals (Slope _ _) (Slope _ _) _) eqn:ES.
  { apply slopes_agree in ES. destruct ES as [ES|[-> ->]]; [left; auto|right; split; apply agree_refl]. }
  assert (NS : x1 <> x2 -> x3 <> x4 -> ~ agree n ((y2 - y1) / (x2 - x1)) ((y4 - y3) / (x4 - x3))).
  { intros H1 H2 A. rewrite !Slope_fin in ES by auto. unfold agree in A. congruence. }
  destruct (IsVertical (pnt x1 y1) _ _) eqn:V1; [apply IsVertical_agree in V1|].
  - destruct (IsVertical (pnt x3 y3) _ _) eqn:V2; [apply IsVertical_agree in V2; right; auto|].
    assert (V2' : ~ agree n x3 x4) by (intros A; apply (IsVertical_agree x3 y3 x4 y4) in A; congruence).
    pose proof (not_agree_neq _ _ _ V2') as N2.
    split. { intros [(A & B & C)|[A B]]; [apply (NS A B C)|tauto]. }
    cbn [px pnt]. rewrite EvalX_fin by auto. rewrite NewPoint_fin. do 2 eexists. split; [reflexivity|].
    left. split; [auto|split; [auto|split; [auto|apply eval_onLine; auto]]].
  - assert (V1' : ~ agree n x1 x2) by (intros A; apply (IsVertical_agree x1 y1 x2 y2) in A; congruence).
    pose proof (not_agree_neq _ _ _ V1') as N1.
    destruct (IsVertical (pnt x3 y3) _ _) eqn:V2; [apply IsVertical_agree in V2|].
    + split. { intros [(A & B & C)|[A B]]; [apply (NS A B C)|tauto]. }
      cbn [px pnt]. rewrite EvalX_fin by auto. rewrite NewPoint_fin. do 2 eexists. split; [reflexivity|].
      right; left. split; [auto|split; [auto|split; [auto|apply eval_onLine; auto]]].
    + assert (V2' : ~ agree n x3 x4) by (intros A; apply (IsVertical_agree x3 y3 x4 y4) in A; congruence).
      pose proof (not_agree_neq _ _ _ V2') as N2.
      pose proof (NS N1 N2) as NM. assert (NE := not_agree_neq _ _ _ NM).
      unfold YIntercept. rewrite !Slope_fin by auto. cbn [px py pnt]. fin.
      rewrite fdiv by lra. rewrite EvalX_fin by auto. cbn [isnan RNum er_isnan orb]. rewrite NewPoint_fin.
      split. { intros [(A & B & C)|[A B]]; [auto|tauto]. }
      do 2 eexists. split; [reflexivity|]. right; right.
      split; [auto|split; [auto|split; [auto|split; [apply eval_onLine; auto|]]]].
      set (m1 := (y2 - y1) / (x2 - x1)) in *. set (m2 := (y4 - y3) / (x4 - x3)) in *.
      set (x := (y3 - m2 * x3 - (y1 - m1 * x1)) / (m1 - m2)).
      assert (E : m1 * x + (y1 - m1 * x1) = m2 * x + (y3 - m2 * x3)) by (unfold x; field; lra).
      rewrite E. apply eval_onLine. auto.
Qed.

(** two lines with different slopes meet once *)
Lemma onLine_unique x1 y1 x2 y2 x3 y3 x4 y4 x y x' y' : x1 <> x2 -> x3 <> x4 -> (y2 - y1) / (x2 - x1) <> (y4 - y3) / (x4 - x3) ->
  onLine x1 y1 x2 y2 x y -> onLine x3 y3 x4 y4 x y -> onLine x1 y1 x2 y2 x' y' -> onLine x3 y3 x4 y4 x' y' -> x = x' /\ y = y'.
Proof.
  intros H1 H2 HM A B C D. apply onLine_eval in A, B, C, D; auto.
  set (m1 := (y2 - y1) / (x2 - x1)) in *. set (m2 := (y4 - y3) / (x4 - x3)) in *.
  assert (x = x').
  { apply (Rmult_eq_reg_l (m1 - m2)); [|lra]. nra. }
  subst. lra.
Qed.

Lemma parallelTo_sym n x1 y1 x2 y2 x3 y3 x4 y4 : parallelTo n x1 y1 x2 y2 x3 y3 x4 y4 -> parallelTo n x3 y3 x4 y4 x1 y1 x2 y2.
Proof. intros [(A & B & C)|[A B]]; [left|right]; auto using agree_sym. Qed.

Lemma LineIntersection_sym x1 y1 x2 y2 x3 y3 x4 y4 n :
  LineIntersection (pnt x1 y1) (pnt x2 y2) (pnt x3 y3) (pnt x4 y4) (Z.of_nat n) =
  LineIntersection (pnt x3 y3) (pnt x4 y4) (pnt x1 y1) (pnt x2 y2) (Z.of_nat n).
Proof.
  pose proof (LineIntersection_cases x1 y1 x2 y2 x3 y3 x4 y4 n) as H.
  pose proof (LineIntersection_cases x3 y3 x4 y4 x1 y1 x2 y2 n) as H'. cbv zeta in H, H'.
  destruct (LineIntersection (pnt x1 y1) _ _ _ _) as [p|], (LineIntersection (pnt x3 y3) _ _ _ _) as [q|]; auto.
  - destruct H as (_ & x & y & -> & H), H' as (_ & x' & y' & -> & H'). f_equal.
    destruct H as [(A & B & -> & D)|[(A & B & -> & D)|(A & B & C & D & E)]],
             H' as [(A' & B' & -> & D')|[(A' & B' & -> & D')|(A' & B' & C' & D' & E')]]; try tauto.
    + f_equal. apply onLine_eval in D; [|eapply not_agree_neq; eauto]. apply onLine_eval in D'; [|eapply not_agree_neq; eauto]. congruence.
    + f_equal. apply onLine_eval in D; [|eapply not_agree_neq; eauto]. apply onLine_eval in D'; [|eapply not_agree_neq; eauto]. congruence.
    + destruct (onLine_unique _ _ _ _ _ _ _ _ _ _ _ _ (not_agree_neq _ _ _ A) (not_agree_neq _ _ _ B) C D E E' D') as [-> ->]. auto.
  - exfalso. apply (proj1 H), parallelTo_sym, H'.
  - exfalso. apply (proj1 H'), parallelTo_sym, H.
Qed.

(** ** Intersect on two lines *)
Lemma PrecisionCompare_ge x y n : Z.geb (PrecisionCompare (N:=RNum) (Fin x) (Fin y) (Z.of_nat n)) 0 = true <-> y <= x \/ agree n x y.
Proof.
  unfold PrecisionCompare, agree. destruct (PrecisionEquals _ _ _); [cbn; tauto|]. fin.
  destruct (Rltb_spec x y); cbn; split; intros; try discriminate; auto; [destruct H; [lra|discriminate]|left; lra].
Qed.
Lemma PrecisionCompare_le x y n : Z.leb (PrecisionCompare (N:=RNum) (Fin x) (Fin y) (Z.of_nat n)) 0 = true <-> x <= y \/ agree n x y.
Proof.
  unfold PrecisionCompare, agree. destruct (PrecisionEquals _ _ _) eqn:E; [cbn; tauto|]. fin.
  destruct (Rltb_spec x y); cbn; split; intros; try discriminate; auto; [left; lra|].
  destruct H; [|discriminate]. assert (x = y) by lra. subst. rewrite PrecisionEquals_refl in E. discriminate.
Qed.

(** between lo and hi as far as n decimals tell *)
Definition inRange (n : nat) (lo hi x : R) : Prop := (lo <= x \/ agree n x lo) /\ (x <= hi \/ agree n x hi).
Lemma inRange_close n lo hi x : inRange n lo hi x -> lo - / 10 ^ n <= x <= hi + / 10 ^ n.
Proof.
  pose proof (pow10_pos n) as P. apply Rinv_0_lt_compat in P. intros [H1 H2]. split.
  - destruct H1 as [H1|H1]; [lra|]. apply agree_close in H1. unfold Rabs in H1. destruct (Rcase_abs _) in H1; lra.
  - destruct H2 as [H2|H2]; [lra|]. apply agree_close in H2. unfold Rabs in H2. destruct (Rcase_abs _) in H2; lra.
Qed.
Definition inBox (n : nat) (x1 y1 x2 y2 x y : R) : Prop :=
  inRange n (Rmin x1 x2) (Rmax x1 x2) x /\ inRange n (Rmin y1 y2) (Rmax y1 y2) y.

Lemma inBox_decides x1 y1 x2 y2 x y n :
  (let '(tl, br) := lineBox (pnt x1 y1) (pnt x2 y2) in PrecisionPointInBoundingBox tl br (pnt x y) (Z.of_nat n)) = true <-> inBox n x1 y1 x2 y2 x y.
Proof.
  rewrite lineBox_fin by (apply finitePt_pnt). unfold PrecisionPointInBoundingBox. cbn [px py pnt X Y val].
  rewrite !andb_true_iff, !PrecisionCompare_ge, !PrecisionCompare_le. unfold inBox, inRange. tauto.
Qed.

Lemma Intersect_lines co x1 y1 x2 y2 x3 y3 x4 y4 n :
  let a := Line (pnt x1 y1) (pnt x2 y2) in let b := Line (pnt x3 y3) (pnt x4 y4) in
  (exists x y, LineIntersection (pnt x1 y1) (pnt x2 y2) (pnt x3 y3) (pnt x4 y4) (Z.of_nat n) = Some (pnt x y) /\
     inBox n x1 y1 x2 y2 x y /\ inBox n x3 y3 x4 y4 x y /\ Intersect co (Z.of_nat n) a b = Ok [(pnt x y, Fin (-1) : T RNum)]) \/
  ((forall x y, LineIntersection (pnt x1 y1) (pnt x2 y2) (pnt x3 y3) (pnt x4 y4) (Z.of_nat n) = Some (pnt x y) ->
     ~ (inBox n x1 y1 x2 y2 x y /\ inBox n x3 y3 x4 y4 x y)) /\ Intersect co (Z.of_nat n) a b = Ok []).
Proof.
  cbv zeta. cbn [Intersect]. pose proof (LineIntersection_cases x1 y1 x2 y2 x3 y3 x4 y4 n) as H. cbv zeta in H.
  pose proof (inBox_decides x1 y1 x2 y2) as D1. pose proof (inBox_decides x3 y3 x4 y4) as D2.
  destruct (lineBox (pnt x1 y1) _) as [tl1 br1], (lineBox (pnt x3 y3) _) as [tl2 br2].
  destruct (LineIntersection _ _ _ _ _) as [p|].
  - destruct H as (_ & x & y & -> & _). specialize (D1 x y n). specialize (D2 x y n). cbv beta iota in D1, D2.
    destruct (PrecisionPointInBoundingBox tl1 _ _ _).
    + destruct (PrecisionPointInBoundingBox tl2 _ _ _).
      * left. exists x, y. split; [auto|]. split; [apply D1; auto|]. split; [apply D2; auto|]. reflexivity.
      * right. split; [|auto]. intros x' y' E [_ Q]. injection E as <- <-. apply D2 in Q. discriminate.
    + right. split; [|auto]. intros x' y' E [Q _]. injection E as <- <-. apply D1 in Q. discriminate.
  - right. split; [discriminate|auto].
Qed.
