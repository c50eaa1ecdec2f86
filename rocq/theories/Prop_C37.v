(** C37: line intersection finds the common point. *)
From Coq Require Import String List ZArith NArith Bool Lia Reals Lra Psatz.
From Verif Require Import Num FloatNum RealNum PathModel DrawModel SegOps PathSpec GeomSpec BezierProofs LineGeom Witness.
Import ListNotations.
Local Open Scope R_scope.

(** Full claim: the returned point lies on both lines.  Proved for lines that are exactly vertical or that three (n) decimals
    tell from vertical; false for the lines in between ([C37_steep_refuted]). *)
Theorem C37_common_point_partial x1 y1 x2 y2 x3 y3 x4 y4 n p :
  LineIntersection (pnt x1 y1) (pnt x2 y2) (pnt x3 y3) (pnt x4 y4) (Z.of_nat n) = Some p ->
  x1 = x2 \/ ~ agree n x1 x2 -> x3 = x4 \/ ~ agree n x3 x4 ->
  exists x y, p = pnt x y /\ onLine x1 y1 x2 y2 x y /\ onLine x3 y3 x4 y4 x y.
Proof.
  intros E H1 H2. pose proof (LineIntersection_cases x1 y1 x2 y2 x3 y3 x4 y4 n) as H. cbv zeta in H. rewrite E in H.
  destruct H as (_ & x & y & -> & H). exists x, y. split; [auto|].
  destruct H as [(A & B & -> & D)|[(A & B & -> & D)|(A & B & C & D & F)]]; [| |auto].
  - destruct H1 as [->|H1]; [|contradiction]. split; [unfold onLine; ring|auto].
  - destruct H2 as [->|H2]; [|contradiction]. split; [auto|unfold onLine; ring].
Qed.
Print Assumptions C37_common_point_partial.

(** it gives up only for lines that are parallel up to the precision: their slopes are within 10^-n of each other, or
    both are within 10^-n of vertical *)
Theorem C37_fails_only_parallel x1 y1 x2 y2 x3 y3 x4 y4 n :
  LineIntersection (pnt x1 y1) (pnt x2 y2) (pnt x3 y3) (pnt x4 y4) (Z.of_nat n) = None ->
  (x1 <> x2 /\ x3 <> x4 /\ Rabs ((y2 - y1) / (x2 - x1) - (y4 - y3) / (x4 - x3)) <= / 10 ^ n) \/
  (Rabs (x1 - x2) <= / 10 ^ n /\ Rabs (x3 - x4) <= / 10 ^ n).
Proof.
  intros E. pose proof (LineIntersection_cases x1 y1 x2 y2 x3 y3 x4 y4 n) as H. cbv zeta in H. rewrite E in H.
  destruct H as [(A & B & C)|[A B]]; [left|right]; auto using agree_close.
Qed.
Print Assumptions C37_fails_only_parallel.

(** and truly parallel lines have no intersection *)
Theorem C37_parallel_none x1 y1 x2 y2 x3 y3 x4 y4 n : (x2 - x1) * (y4 - y3) = (y2 - y1) * (x4 - x3) ->
  (x1, y1) <> (x2, y2) -> (x3, y3) <> (x4, y4) ->
  LineIntersection (pnt x1 y1) (pnt x2 y2) (pnt x3 y3) (pnt x4 y4) (Z.of_nat n) = None.
Proof.
  intros E D1 D2. pose proof (LineIntersection_cases x1 y1 x2 y2 x3 y3 x4 y4 n) as H. cbv zeta in H.
  destruct (LineIntersection _ _ _ _ _) as [p|]; auto. exfalso. apply (proj1 H).
  destruct (Req_dec x1 x2) as [->|N1], (Req_dec x3 x4) as [->|N2].
  - right; split; apply agree_refl.
  - exfalso. apply D1. f_equal. assert ((y2 - y1) * (x4 - x3) = 0) as Z by lra. apply Rmult_integral in Z. lra.
  - exfalso. apply D2. f_equal. assert ((x2 - x1) * (y4 - y3) = 0) as Z by lra. apply Rmult_integral in Z. lra.
  - left. split; [auto|split; [auto|]]. replace ((y4 - y3) / (x4 - x3)) with ((y2 - y1) / (x2 - x1)); [apply agree_refl|].
    apply (Rmult_eq_reg_l ((x2 - x1) * (x4 - x3))); [field_simplify; try lra|]; nra.
Qed.
Print Assumptions C37_parallel_none.

(** Intersect reports at most one point, inside both boxes up to 10^-n *)
Theorem C37_intersect_in_boxes co x1 y1 x2 y2 x3 y3 x4 y4 n l :
  Intersect co (Z.of_nat n) (Line (pnt x1 y1) (pnt x2 y2)) (Line (pnt x3 y3) (pnt x4 y4)) = Ok l ->
  l = [] \/ exists x y t, l = [(pnt x y, t)] /\
    Rmin x1 x2 - / 10 ^ n <= x <= Rmax x1 x2 + / 10 ^ n /\ Rmin y1 y2 - / 10 ^ n <= y <= Rmax y1 y2 + / 10 ^ n /\
    Rmin x3 x4 - / 10 ^ n <= x <= Rmax x3 x4 + / 10 ^ n /\ Rmin y3 y4 - / 10 ^ n <= y <= Rmax y3 y4 + / 10 ^ n.
Proof.
  intros E. destruct (Intersect_lines co x1 y1 x2 y2 x3 y3 x4 y4 n) as [(x & y & _ & (A & B) & (C & D) & H)|[_ H]]; cbv zeta in H; rewrite H in E; injection E as <-.
  - right. exists x, y, (Fin (-1)). split; [auto|]. auto using inRange_close.
  - auto.
Qed.
Print Assumptions C37_intersect_in_boxes.

(** two segments that cross in a point, not parallel to the precision, are found to cross there *)
Theorem C37_intersect_finds co x1 y1 x2 y2 x3 y3 x4 y4 n x y :
  let a := Line (pnt x1 y1) (pnt x2 y2) in let b := Line (pnt x3 y3) (pnt x4 y4) in
  onSeg a x y -> onSeg b x y -> x1 = x2 \/ ~ agree n x1 x2 -> x3 = x4 \/ ~ agree n x3 x4 ->
  LineIntersection (pnt x1 y1) (pnt x2 y2) (pnt x3 y3) (pnt x4 y4) (Z.of_nat n) <> None ->
  Intersect co (Z.of_nat n) a b = Ok [(pnt x y, Fin (-1) : T RNum)].
Proof.
  cbv zeta. intros A B H1 H2 NN.
  assert (IA : inBox n x1 y1 x2 y2 x y).
  { destruct A as (t & Ht & A). cbn [X Y val pnt px py] in A. destruct A as [-> ->].
    unfold inBox, inRange, Rmin, Rmax. repeat destruct (Rle_dec _ _); repeat split; left; nra. }
  assert (IB : inBox n x3 y3 x4 y4 x y).
  { destruct B as (t & Ht & B). cbn [X Y val pnt px py] in B. destruct B as [-> ->].
    unfold inBox, inRange, Rmin, Rmax. repeat destruct (Rle_dec _ _); repeat split; left; nra. }
  assert (LA : onLine x1 y1 x2 y2 x y) by (destruct A as (t & Ht & A); cbn [X Y val pnt px py] in A; destruct A as [-> ->]; unfold onLine; ring).
  assert (LB : onLine x3 y3 x4 y4 x y) by (destruct B as (t & Ht & B); cbn [X Y val pnt px py] in B; destruct B as [-> ->]; unfold onLine; ring).
  assert (EL : LineIntersection (pnt x1 y1) (pnt x2 y2) (pnt x3 y3) (pnt x4 y4) (Z.of_nat n) = Some (pnt x y)).
  { pose proof (LineIntersection_cases x1 y1 x2 y2 x3 y3 x4 y4 n) as H. cbv zeta in H.
    destruct (LineIntersection _ _ _ _ _) as [p|]; [|congruence]. destruct H as (_ & x' & y' & -> & H). f_equal.
    destruct H as [(P & Q & -> & D)|[(P & Q & -> & D)|(P & Q & C & D & F)]].
    - destruct H1 as [->|H1]; [|contradiction]. pose proof (not_agree_neq _ _ _ Q) as NQ.
      assert (x = x2). { destruct A as (t & _ & A & _). cbn [X val pnt px] in A. lra. } subst x.
      f_equal. apply onLine_eval in D, LB; auto. congruence.
    - destruct H2 as [->|H2]; [|contradiction]. pose proof (not_agree_neq _ _ _ P) as NP.
      assert (x = x4). { destruct B as (t & _ & B & _). cbn [X val pnt px] in B. lra. } subst x.
      f_equal. apply onLine_eval in D, LA; auto. congruence.
    - destruct (onLine_unique _ _ _ _ _ _ _ _ _ _ _ _ (not_agree_neq _ _ _ P) (not_agree_neq _ _ _ Q) C D F LA LB) as [-> ->]. auto. }
  destruct (Intersect_lines co x1 y1 x2 y2 x3 y3 x4 y4 n) as [(x' & y' & E & _ & _ & H)|[H _]]; cbv zeta in H.
  - rewrite E in EL. injection EL as -> ->. exact H.
  - exfalso. apply (H _ _ EL). auto.
Qed.
Print Assumptions C37_intersect_finds.

(** the order of the arguments does not matter, for two lines and for a line with a curve *)
Theorem C37_order_irrelevant co x1 y1 x2 y2 x3 y3 x4 y4 n :
  let a := Line (pnt x1 y1) (pnt x2 y2) in let b := Line (pnt x3 y3) (pnt x4 y4) in
  Intersect co (Z.of_nat n) a b = Intersect co (Z.of_nat n) b a /\
  forall s cs e ce, Intersect co (Z.of_nat n) a (Curve s cs e ce) = Intersect co (Z.of_nat n) (Curve s cs e ce) a.
Proof.
  cbv zeta. split; [|reflexivity].
  pose proof (LineIntersection_sym x1 y1 x2 y2 x3 y3 x4 y4 n) as ES.
  destruct (Intersect_lines co x1 y1 x2 y2 x3 y3 x4 y4 n) as [(x & y & E & A & B & H)|[H0 H]], (Intersect_lines co x3 y3 x4 y4 x1 y1 x2 y2 n) as [(x' & y' & E' & A' & B' & H')|[H0' H']];
    cbv zeta in *; rewrite H, H'; auto.
  - rewrite <- ES, E in E'. injection E' as -> ->. auto.
  - exfalso. apply (H0' x y); [congruence|auto].
  - exfalso. apply (H0 x' y'); [congruence|auto].
Qed.
Print Assumptions C37_order_irrelevant.

(** Finding: a line 0.0004 wide and 1 tall counts as vertical to 3 decimals; its intersection with the line y = 1000 is
    reported at x = 0, on the second line but 0.4 away from the first, whose points are x = 0.0004 y. *)
Theorem C37_steep_refuted :
  LineIntersection (pnt 0 0) (pnt (4/10000) 1) (pnt (-1) 1000) (pnt 1 1000) 3 = Some (pnt 0 1000) /\
  ~ onLine 0 0 (4/10000) 1 0 1000.
Proof.
  split; [|unfold onLine; lra].
  pose proof (LineIntersection_cases 0 0 (4/10000) 1 (-1) 1000 1 1000 3) as H. cbv zeta in H.
  change (Z.of_nat 3) with 3%Z in H.
  assert (V : agree 3 0 (4/10000)).
  { unfold agree. rewrite TextProofs.PrecisionEquals_same. unfold TextProofs.same_dec. cbn [fmtd RNum er_fmtd]. f_equal.
    - destruct (Rltb_spec 0 0), (Rltb_spec (4/10000) 0); auto; lra.
    - rewrite Rabs_R0, Rabs_right by lra. unfold Rround_he.
      assert (I : forall r, 0 <= r < 1/2 -> Int_part r = 0%Z).
      { intros r Hr. pose proof (base_Int_part r) as [A B]. assert (-1 < IZR (Int_part r)) by lra. assert (IZR (Int_part r) < 1) by lra.
        apply (lt_IZR (-1)) in H0. apply (lt_IZR _ 1) in H1. lia. }
      rewrite !I by lra. destruct (Rlt_dec (0 * 10 ^ 3 - 0) (1/2)), (Rlt_dec (4/10000 * 10 ^ 3 - 0) (1/2)); auto; lra. }
  assert (NV : ~ agree 3 (-1) 1).
  { intros A. apply agree_close in A. replace (-1 - 1) with (-2) in A by lra. rewrite Rabs_left in A by lra. lra. }
  destruct (LineIntersection _ _ _ _ _) as [p|].
  - destruct H as (_ & x & y & -> & [(_ & _ & -> & D)|[(A & _)|(A & _)]]); [|contradiction|contradiction].
    unfold onLine in D. do 2 f_equal. lra.
  - destruct H as [(_ & _ & A)|[_ A]]; [|contradiction]. exfalso. apply agree_close in A.
    replace ((1 - 0) / (4 / 10000 - 0) - (1000 - 1000) / (1 - -1)) with 2500 in A by lra. rewrite Rabs_right in A by lra. lra.
Qed.
Print Assumptions C37_steep_refuted.

(** in binary64: a diagonal and a vertical line cross; a segment that stops short does not; parallel lines do not *)
Definition places (r : res (list ipt)) := match r with Ok l => Some (map (fun p : ipt => Witness.dpt (fst p)) l) | _ => None end.
Definition place (o : option (Pt FNum)) := match o with Some p => Some (Witness.dpt p) | None => None end.
Example C37_example :
  places (Intersect noCurves 3 (ln 0 0 10 10) (ln 4 9 4 0)) = Some [Witness.dpt (pt 4 4)] /\
  places (Intersect noCurves 3 (ln 0 0 10 10) (ln 4 9 4 5)) = Some [] /\
  place (LineIntersection (pt 0 0) (pt 10 10) (pt 0 1) (pt 5 6) 3) = None /\
  place (LineIntersection (pt 0 0) (pt 4 4) (pt 0 6) (pt 6 0) 3) = Some (Witness.dpt (pt 3 3)).
Proof. repeat split; vm_compute; reflexivity. Qed.
Example C37_example_hyps : (0 <> 10 /\ ~ agree 3 0 10) /\ onSeg (Line (pnt 0 0) (pnt 10 10)) 4 4 /\ onSeg (Line (pnt 4 9) (pnt 4 0)) 4 4 /\
  LineIntersection (pnt 0 0) (pnt 10 10) (pnt 4 9) (pnt 4 0) 3 = Some (pnt 4 4).
Proof.
  assert (NA : ~ agree 3 0 10).
  { intros A. apply agree_close in A. replace (0 - 10) with (-10) in A by lra. rewrite Rabs_left in A by lra. lra. }
  split; [split; [lra|auto]|]. split; [exists (4/10); cbn; lra|]. split; [exists (5/9); cbn; lra|].
  pose proof (LineIntersection_cases 0 0 10 10 4 9 4 0 3) as H. cbv zeta in H. change (Z.of_nat 3) with 3%Z in H.
  destruct (LineIntersection _ _ _ _ _) as [p|].
  - destruct H as (_ & x & y & -> & [(A & _)|[(_ & _ & -> & D)|(_ & A & _)]]); [contradiction| |exfalso; apply A, agree_refl].
    unfold onLine in D. do 2 f_equal. lra.
  - destruct H as [(_ & B & _)|[A _]]; [lra|contradiction].
Qed.
