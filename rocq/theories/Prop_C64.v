(** C64: the intercepts of an outline with a horizontal line (HorizontalIntercepts). *)
From Coq Require Import List ZArith Bool Reals Lra Lia Sorting.Permutation Sorting.Sorted.
From Verif Require Import Num FloatNum RealNum RealTrig PathModel SegOps Bezier PathSpec GeomSpec BezierProofs RootsProofs GeomProofs LineGeom Witness Components CompProofs Prop_C37 Prop_C35 Prop_C56 Prop_C57 Prop_C63.
Import ListNotations.
Local Open Scope R_scope.

(** A line of the outline is exactly vertical or at least 10^-n wide, and then exactly level or not flatter than 10^-n. *)
Definition clearLine (n : nat) (s e : Pt RNum) : Prop :=
  X s = X e \/ (/ 10 ^ n < Rabs (X e - X s) /\ (Y s = Y e \/ / 10 ^ n < Rabs ((Y e - Y s) / (X e - X s)))).
(** A curve of the outline: the coefficients of its height as a polynomial of the parameter, from the highest one that is not zero, are not
    below a millionth; and the curve does not run along the line of height [y]. *)
Definition clearCurve (y : R) (s cs e ce : Pt RNum) : Prop :=
  let c3 := Y e - 3 * Y ce + 3 * Y cs - Y s in let c2 := 3 * Y s - 6 * Y cs + 3 * Y ce in let c1 := 3 * Y cs - 3 * Y s in
  settled c3 /\ (c3 = 0 -> settled c2) /\ (c3 = 0 -> c2 = 0 -> settled c1) /\ ~ (Y s = y /\ Y cs = y /\ Y ce = y /\ Y e = y).
Definition clearSeg (n : nat) (y : R) (g : seg RNum) : Prop :=
  match g with Move _ _ => True | Line s e => clearLine n s e | Curve s cs e ce => clearCurve y s cs e ce end.
(** a level line crosses no height *)
Definition level (g : seg RNum) : Prop :=
  match g with Line s e => Y s = Y e /\ X s <> X e | _ => False end.
(** the segment passes within [d] of the point, in both coordinates *)
Definition passes (d : R) (g : seg RNum) (x y : R) : Prop := exists x' y', onSeg g x' y' /\ Rabs (x - x') <= d /\ Rabs (y - y') <= d.

(** *** sorting *)
Lemma insertX_perm (q : Pt RNum) l : Permutation (q :: l) (insertX q l).
Proof.
  induction l as [|a l IH]; [reflexivity|]. cbn [insertX]. destruct (ltb (px q) (px a)); [reflexivity|].
  rewrite perm_swap. constructor. exact IH.
Qed.
Lemma sortX_loop_perm (l acc : list (Pt RNum)) : Permutation (l ++ acc) (fold_left (fun acc q => insertX q acc) l acc).
Proof.
  revert acc. induction l as [|q l IH]; intros acc; [reflexivity|]. cbn [fold_left app]. rewrite <- IH.
  rewrite Permutation_middle. apply Permutation_app_head. apply insertX_perm.
Qed.
Lemma sortX_perm (l : list (Pt RNum)) : Permutation l (sortX l).
Proof. unfold sortX. rewrite <- sortX_loop_perm, app_nil_r. reflexivity. Qed.
Definition leftToRight : list (Pt RNum) -> Prop := StronglySorted (fun a b => X a <= X b).
Lemma insertX_sorted q l : finitePt q -> Forall finitePt l -> leftToRight l -> leftToRight (insertX q l).
Proof.
  intros Fq Fl S. induction S as [|a l S IH A]; [repeat constructor|]. inversion Fl as [|? ? Fa Fl']; subst. cbn [insertX].
  rewrite (px_fin _ Fq), (px_fin _ Fa). fin. destruct (Rltb_spec (X q) (X a)).
  - constructor; [constructor; auto|]. constructor; [lra|]. eapply Forall_impl; [|exact A]. cbv beta. intros. lra.
  - constructor; [apply IH; auto|]. apply (Permutation_Forall (insertX_perm q l)). constructor; [lra|auto].
Qed.
Lemma sortX_sorted l : Forall finitePt l -> leftToRight (sortX l).
Proof.
  intros F. unfold sortX. assert (G : forall acc, Forall finitePt acc -> leftToRight acc -> leftToRight (fold_left (fun acc q => insertX q acc) l acc)).
  { induction F as [|q l Fq F IH]; intros acc Fa S; [exact S|]. cbn [fold_left]. apply IH; [|apply insertX_sorted; auto].
    apply (Permutation_Forall (insertX_perm q acc)). constructor; auto. }
  apply G; constructor.
Qed.

(** *** one segment *)
Lemma off_level l r y q : l < r -> off (pnt l y) (pnt r y) q = Y q - y.
Proof.
  intros H. unfold off. rewrite !pnt_X, !pnt_Y. replace ((r - l) * (r - l) + (y - y) * (y - y)) with ((r - l) * (r - l)) by ring.
  rewrite sqrt_square by lra. field. lra.
Qed.
Lemma level_apart l r y s cs e ce : l < r -> clearCurve y s cs e ce -> told_apart (pnt l y) (pnt r y) (mkCrv s cs e ce).
Proof.
  intros L (A & B & C & D). unfold told_apart. cbn [c_s c_cs c_ce c_e]. rewrite !off_level by exact L.
  replace (Y e - y - 3 * (Y ce - y) + 3 * (Y cs - y) - (Y s - y)) with (Y e - 3 * Y ce + 3 * Y cs - Y s) by ring.
  replace (3 * (Y s - y) - 6 * (Y cs - y) + 3 * (Y ce - y)) with (3 * Y s - 6 * Y cs + 3 * Y ce) by ring.
  replace (3 * (Y cs - y) - 3 * (Y s - y)) with (3 * Y cs - 3 * Y s) by ring.
  split; [exact A|]. split; [exact B|]. split; [exact C|]. intros (E1 & E2 & E3 & E4). apply D. lra.
Qed.

Section Hits.
Variables (fuel n : nat) (l r y : R).
Hypothesis WIDE : l + / 10 ^ n < r.
Let eps_pos : 0 < / 10 ^ n. Proof. apply Rinv_0_lt_compat, pow_lt. lra. Qed.
Let co := BezierOps RTrig RBMath fuel.
Let scan := @Line RNum (pnt l y) (pnt r y).
Definition answers (g : seg RNum) (hs : list (Pt RNum * T RNum)) : Prop :=
  (forall q, In q (map fst hs) -> visible g /\ exists x, q = pnt x y /\ passes (/ 10 ^ n) g x y) /\
  (forall x, visible g -> ~ level g -> onSeg g x y -> In (pnt x y) (map fst hs)).

Lemma scan_apart : ~ agree n l r.
Proof. intros H. apply agree_close in H. unfold Rabs in H. destruct (Rcase_abs _) in H; lra. Qed.
Lemma hit_line s e : finitePt s -> finitePt e -> clearLine n s e -> (forall x y, onSeg (Line s e) x y -> l <= x <= r) ->
  exists hs, Intersect co (Z.of_nat n) scan (Line s e) = Ok hs /\ answers (Line s e) hs.
Proof.
  intros Fs Fe. rewrite (pnt_eta s Fs), (pnt_eta e Fe). generalize (X s) (Y s) (X e) (Y e). clear s e Fs Fe. intros x3 y3 x4 y4 C IN.
  unfold clearLine in C. rewrite !pnt_X, !pnt_Y in C.
  assert (H3 : x3 = x4 \/ ~ agree n x3 x4).
  { destruct C as [C|[C _]]; [auto|]. right. intros H. apply agree_close in H. rewrite Rabs_minus_sym in H. lra. }
  destruct (Intersect_lines co l y r y x3 y3 x4 y4 n) as [(x & y' & E & A & B & H)|[H0 H]]; cbv zeta in *; unfold scan; eexists; (split; [exact H|]).
  - split.
    + intros q [<-|[]]. split; [exact I|]. destruct (C37_common_point_partial _ _ _ _ _ _ _ _ _ _ E (or_intror scan_apart) H3) as (x0 & y0 & E0 & L1 & L2).
      injection E0 as <- <-. unfold onLine in L1, L2.
      assert (EY : y' = y). { assert (Z : (y' - y) * (r - l) = 0) by lra. apply Rmult_integral in Z. lra. } subst y'. clear L1.
      exists x. split; [reflexivity|]. destruct B as [B1 B2]. apply inRange_close in B1, B2. clear - L2 B1 B2 C E eps_pos WIDE.
      set (d := / 10 ^ n) in *. unfold passes.
      destruct (Req_dec y3 y4) as [NY|NY].
      * destruct (Req_dec x3 x4) as [NX|NX].
        -- subst. exists x4, y4. split; [exists 0; rewrite !pnt_X, !pnt_Y; lra|].
           rewrite Rmin_left, Rmax_left in B1, B2 by lra. split; apply Rabs_le; lra.
        -- exfalso. rewrite C37_parallel_none in E; [discriminate|subst; ring|intros Z; injection Z; lra|intros Z; injection Z; lra].
      * set (t := (y - y3) / (y4 - y3)). assert (ET : y = y3 + t * (y4 - y3)) by (unfold t; field; lra).
        assert (EX : x = x3 + t * (x4 - x3)).
        { apply (Rmult_eq_reg_r (y4 - y3)); [|lra]. rewrite ET in L2. lra. }
        clearbody t. subst x y.
        destruct (Rle_dec t 0) as [T0|T0]; [|destruct (Rle_dec 1 t) as [T1|T1]].
        -- exists x3, y3. split; [exists 0; rewrite !pnt_X, !pnt_Y; lra|].
           split; apply Rabs_le; unfold Rmin, Rmax in *; destruct (Rle_dec x3 x4), (Rle_dec y3 y4); nra.
        -- exists x4, y4. split; [exists 1; rewrite !pnt_X, !pnt_Y; lra|].
           split; apply Rabs_le; unfold Rmin, Rmax in *; destruct (Rle_dec x3 x4), (Rle_dec y3 y4); nra.
        -- exists (x3 + t * (x4 - x3)), (y3 + t * (y4 - y3)). split; [exists t; rewrite !pnt_X, !pnt_Y; lra|]. split; apply Rabs_le; lra.
    + intros x0 _ NL O. rewrite (C37_intersect_finds co l y r y x3 y3 x4 y4 n x0 y) in H; [injection H as <- <-; left; reflexivity| |exact O|right; exact scan_apart|exact H3|congruence].
      pose proof (IN _ _ O). exists ((x0 - l) / (r - l)). rewrite !pnt_X, !pnt_Y. split.
      * split; [apply Rmult_le_pos; [lra|left; apply Rinv_0_lt_compat; lra]|]. apply (Rmult_le_reg_r (r - l)); [lra|]. unfold Rdiv. rewrite Rmult_assoc, Rinv_l; lra.
      * split; [field; lra|ring].
  - split; [intros q []|]. intros x0 _ NL O. exfalso. unfold level in NL. rewrite !pnt_X, !pnt_Y in NL.
    assert (NN : LineIntersection (pnt l y) (pnt r y) (pnt x3 y3) (pnt x4 y4) (Z.of_nat n) <> None).
    { intros Z. apply C37_fails_only_parallel in Z. destruct Z as [(_ & N & Z)|[Z _]].
      - destruct C as [C|(_ & [C|C])]; [auto|tauto|]. replace ((y - y) / (r - l) - (y4 - y3) / (x4 - x3)) with (- ((y4 - y3) / (x4 - x3))) in Z by (field; lra).
        rewrite Rabs_Ropp in Z. lra.
      - rewrite Rabs_minus_sym, Rabs_right in Z by lra. lra. }
    rewrite (C37_intersect_finds co l y r y x3 y3 x4 y4 n x0 y) in H; [discriminate| |exact O|right; exact scan_apart|exact H3|exact NN].
    pose proof (IN _ _ O). exists ((x0 - l) / (r - l)). rewrite !pnt_X, !pnt_Y. split.
    + split; [apply Rmult_le_pos; [lra|left; apply Rinv_0_lt_compat; lra]|]. apply (Rmult_le_reg_r (r - l)); [lra|]. unfold Rdiv. rewrite Rmult_assoc, Rinv_l; lra.
    + split; [field; lra|ring].
Qed.
Lemma hit_curve s cs e ce : finiteSeg (Curve s cs e ce) -> clearCurve y s cs e ce -> (forall x y, onSeg (Curve s cs e ce) x y -> l <= x <= r) ->
  exists hs, Intersect co (Z.of_nat n) scan (Curve s cs e ce) = Ok hs /\ answers (Curve s cs e ce) hs.
Proof.
  intros F C IN. set (c := mkCrv s cs e ce). assert (FC : finiteCrv c) by (cbn in F; repeat split; tauto).
  assert (T : told_apart (pnt l y) (pnt r y) c) by (apply level_apart; [lra|exact C]).
  assert (NE : X (pnt l y) <> X (pnt r y) \/ Y (pnt l y) <> Y (pnt r y)) by (left; rewrite !pnt_X; lra).
  assert (M : forall t, In (Fin t) (IntersectsLine RTrig RBMath c (pnt l y) (pnt r y)) <-> 0 <= t <= 1 /\ curveY c t = y).
  { intros t. rewrite C57_crossing_partial; auto using finitePt_pnt; [|rewrite !pnt_Y; lra]. unfold on_line, near_between. rewrite !pnt_X, !pnt_Y.
    rewrite Rmin_left, Rmax_right, (Rmin_left y y), (Rmax_left y y) by lra. split.
    - intros (Ht & L & _ & _). split; [exact Ht|]. assert (Z : (curveY c t - y) * (r - l) = 0) by lra. apply Rmult_integral in Z. lra.
    - intros (Ht & EY). rewrite EY. split; [exact Ht|]. split; [ring|]. split; [|lra].
      assert (l <= curveX c t <= r) by (apply (IN _ (curveY c t)); exists t; split; [exact Ht|]; split; reflexivity). lra. }
  assert (FI : forall u, In u (IntersectsLine RTrig RBMath c (pnt l y) (pnt r y)) -> exists t, u = Fin t).
  { intros u H. unfold IntersectsLine in H. apply filter_In in H. destruct H as [H _]. apply (proj2 (C56_meets_partial c _ _ FC (finitePt_pnt _ _) (finitePt_pnt _ _) NE T) u). exact H. }
  unfold scan. eexists. split; [reflexivity|]. unfold answers. rewrite map_map. split.
  - intros q H. split; [exact I|]. apply in_map_iff in H. destruct H as (u & <- & H). destruct (FI u H) as (t & ->). apply M in H. destruct H as [Ht EY].
    unfold tP. cbn [fst]. fold c. rewrite FindPoint_spec by exact FC. rewrite bpP_finite by apply finitePt_pnt. rewrite EY. exists (curveX c t). split; [reflexivity|].
    exists (curveX c t), y. split; [exists t; split; [exact Ht|split; [reflexivity|rewrite <- EY; reflexivity]]|]. unfold Rminus. rewrite !Rplus_opp_r, Rabs_R0. lra.
  - intros x _ _ (t & Ht & EX & EY). apply in_map_iff. exists (Fin t). split; [|apply M; split; [exact Ht|symmetry; exact EY]].
    unfold tP. cbn [fst]. fold c. rewrite FindPoint_spec by exact FC. rewrite bpP_finite by apply finitePt_pnt. change (cubic (X s) (X cs) (X ce) (X e) t) with (curveX c t) in EX.
    change (cubic (Y s) (Y cs) (Y ce) (Y e) t) with (curveY c t) in EY. congruence.
Qed.
Lemma hit_seg g : finiteSeg g -> clearSeg n y g -> (visible g -> forall x y, onSeg g x y -> l <= x <= r) ->
  exists hs, Intersect co (Z.of_nat n) scan g = Ok hs /\ answers g hs.
Proof.
  destruct g as [s e|s e|s cs e ce]; intros F C IN.
  - exists []. split; [reflexivity|]. split; [intros q []|intros x []].
  - cbn in F. apply hit_line; [tauto|tauto|exact C|apply IN; exact I].
  - apply hit_curve; [exact F|exact C|apply IN; exact I].
Qed.
End Hits.
Lemma each_exists {A B} (F : A -> res B) (Q : A -> B -> Prop) l : (forall a, In a l -> exists b, F a = Ok b /\ Q a b) -> exists bs, each F l = Ok bs /\ Forall2 Q l bs.
Proof.
  induction l as [|a l IH]; intros H; [exists []; auto|]. destruct (H a (or_introl eq_refl)) as (b & E & HQ). destruct IH as (bs & EB & HB); [intros; apply H; right; auto|].
  exists (b :: bs). split; [|auto]. cbn [each]. rewrite E. cbn [bind]. rewrite EB. reflexivity.
Qed.
Lemma box_sides fuel p n : Forall tame p -> (forall x y, inDrawing p x y -> 0 <= x /\ 0 <= y) -> (exists x y, inDrawing p x y /\ / 10 ^ n < x) ->
  exists l t r b, BoundingBoxWithWhitespace (BezierOps RTrig RBMath fuel) p = Ok (pnt l t, pnt r b) /\ l + / 10 ^ n < r /\ forall x y, inDrawing p x y -> l <= x <= r.
Proof.
  intros H Hp (x0 & y0 & I0 & X0). assert (NE : p <> []) by (intros ->; destruct I0 as (g & [] & _)).
  destruct p as [|g p]; [congruence|]. destruct (BoundingBoxWithWhitespace_spec _ (BezierOps_boxOk RTrig RBMath fuel) g p H) as (tl & br & (_ & _ & (B1 & _) & _) & E).
  eexists _, _, _, _. split; [exact E|].
  assert (IN : forall x y, inDrawing (g :: p) x y -> Rmin 0 (X (sstart g)) <= x <= Rmax (X br) (X (send (last (g :: p) g)))).
  { intros x y O. destruct (Hp x y O) as [Hx _]. assert (O' : orSet (onSeg g) (inDrawing p) x y) by (destruct O as (h & [->|Hh] & V & O); [left; auto|right; exists h; auto]).
    assert (X tl <= x <= X br) by (apply B1; exists y; auto). pose proof (Rmin_l 0 (X (sstart g))). pose proof (Rmax_l (X br) (X (send (last (g :: p) g)))). lra. }
  split; [|exact IN]. pose proof (IN _ _ I0). pose proof (Rmin_l 0 (X (sstart g))). lra.
Qed.

(** For an outline drawn to the right of the origin and clear of the tolerances, the intercepts are sorted from left to right; each has the
    height asked for and lies on the outline up to 10^-n; and every place where the outline has that height is reported, except on level lines.
    Missing: outlines that reach to the left of the origin, see [C64_left_refuted]. *)
Theorem C64_intercepts_partial fuel n (p : path RNum) (y : R) : Forall tame p -> (forall x y, inDrawing p x y -> 0 <= x /\ 0 <= y) ->
  (exists x y, inDrawing p x y /\ / 10 ^ n < x) -> Forall (clearSeg n y) p ->
  exists l, HorizontalIntercepts (BezierOps RTrig RBMath fuel) (Z.of_nat n) p (Fin y) = Ok l /\ leftToRight l /\
    (forall q, In q l -> exists x g, q = pnt x y /\ In g p /\ visible g /\ passes (/ 10 ^ n) g x y) /\
    (forall g x, In g p -> visible g -> ~ level g -> onSeg g x y -> In (pnt x y) l).
Proof.
  intros H Hp HX HC. destruct (box_sides fuel p n H Hp HX) as (l & t & r & b & E & W & IN).
  destruct (each_exists (Intersect (BezierOps RTrig RBMath fuel) (Z.of_nat n) (Line (pnt l y) (pnt r y))) (answers n y) p) as (hs & EH & A).
  { intros g Hg. apply hit_seg; [exact W| | |].
    - eapply Forall_forall in H; [|exact Hg]. apply H.
    - eapply Forall_forall in HC; [|exact Hg]. exact HC.
    - intros V x y' O. apply (IN x y'). exists g. auto. }
  exists (sortX (map fst (concat hs))). split.
  { unfold HorizontalIntercepts. rewrite E. cbn [bind]. change (@NewPoint RNum (px (pnt l t)) (Fin y)) with (@NewPoint RNum (Fin l) (Fin y)). change (@NewPoint RNum (px (pnt r b)) (Fin y)) with (@NewPoint RNum (Fin r) (Fin y)).
    rewrite !NewPoint_fin. rewrite EH. reflexivity. }
  assert (S1 : forall q, In q (map fst (concat hs)) -> exists x g, q = pnt x y /\ In g p /\ visible g /\ passes (/ 10 ^ n) g x y).
  { clear - A. induction A as [|g h p hs HA A IH]; [intros q []|]. cbn [concat]. intros q Hq. rewrite map_app in Hq. apply in_app_or in Hq. destruct Hq as [Hq|Hq].
    - destruct (proj1 HA q Hq) as (V & x & -> & Q). exists x, g. split; [auto|]. split; [left; auto|auto].
    - destruct (IH q Hq) as (x & g' & -> & I & V & Q). exists x, g'. split; [auto|]. split; [right; auto|auto]. }
  assert (S2 : forall g x, In g p -> visible g -> ~ level g -> onSeg g x y -> In (pnt x y) (map fst (concat hs))).
  { clear - A. induction A as [|g h p hs HA A IH]; intros g' x; [intros []|]. cbn [concat]. intros [<-|I] V L O; rewrite map_app; apply in_or_app; [left; apply (proj2 HA); auto|right; eauto]. }
  split; [|split].
  - apply sortX_sorted. apply Forall_forall. intros q Hq. destruct (S1 q Hq) as (x & g & -> & _). apply finitePt_pnt.
  - intros q Hq. apply S1. eapply Permutation_in; [symmetry; apply sortX_perm|exact Hq].
  - intros g x I V L O. eapply Permutation_in; [apply sortX_perm|eauto].
Qed.
Print Assumptions C64_intercepts_partial.

(** *** outlines of straight lines *)
(** where a line that starts on one side of the height and ends on the other crosses it *)
Definition crossing (y : R) (g : seg RNum) : list (Pt RNum) :=
  match g with
  | Line s e => if Rlt_dec ((Y s - y) * (Y e - y)) 0 then [pnt (X s + (y - Y s) / (Y e - Y s) * (X e - X s)) y] else []
  | _ => []
  end.
(** no line starts or ends closer than 10^-n to the height *)
Definition offVertex (n : nat) (y : R) (g : seg RNum) : Prop :=
  match g with Line s e => / 10 ^ n < Rabs (Y s - y) /\ / 10 ^ n < Rabs (Y e - y) | Move _ _ => True | Curve _ _ _ _ => False end.

Lemma hit_exact fuel n l r y g : l + / 10 ^ n < r -> finiteSeg g -> clearSeg n y g -> offVertex n y g -> (visible g -> forall x y, onSeg g x y -> l <= x <= r) ->
  exists hs, Intersect (BezierOps RTrig RBMath fuel) (Z.of_nat n) (Line (pnt l y) (pnt r y)) g = Ok hs /\ map fst hs = crossing y g.
Proof.
  intros W F C V IN. destruct (hit_seg fuel n l r y W g F C IN) as (hs & E & A1 & A2). exists hs. split; [exact E|].
  destruct g as [s e|s e|s cs e ce]; [injection E as <-; reflexivity| |destruct V]. cbn in F. destruct F as [Fs Fe]. destruct V as [V1 V2]. cbn [visible] in A1, A2.
  assert (LE : hs = [] \/ exists h, hs = [h]).
  { rewrite (pnt_eta s Fs), (pnt_eta e Fe) in E. apply C37_intersect_in_boxes in E. destruct E as [->|(x & y' & t & -> & _)]; eauto. }
  assert (P : 0 < / 10 ^ n) by (apply Rinv_0_lt_compat, pow_lt; lra).
  unfold crossing. destruct (Rlt_dec ((Y s - y) * (Y e - y)) 0) as [S|S].
  - assert (NY : Y e - Y s <> 0) by (intros Z; assert (Y e = Y s) by lra; assert (0 <= (Y s - y) * (Y e - y)) by (replace (Y e) with (Y s); apply Rle_0_sqr); lra).
    assert (O : onSeg (Line s e) (X s + (y - Y s) / (Y e - Y s) * (X e - X s)) y).
    { exists ((y - Y s) / (Y e - Y s)). split; [|split; [reflexivity|field; exact NY]].
      destruct (Rlt_dec (Y s) (Y e)) as [L|L].
      - assert (Y s <= y <= Y e) by (split; apply Rnot_lt_le; intros ?; nra). split; [apply Rmult_le_pos; [lra|left; apply Rinv_0_lt_compat; lra]|].
        apply (Rmult_le_reg_r (Y e - Y s)); [lra|]. unfold Rdiv. rewrite Rmult_assoc, Rinv_l; lra.
      - assert (Y e <= y <= Y s) by (split; apply Rnot_lt_le; intros ?; nra). replace ((y - Y s) / (Y e - Y s)) with ((Y s - y) / (Y s - Y e)) by (field; lra). split; [apply Rmult_le_pos; [lra|left; apply Rinv_0_lt_compat; lra]|].
        apply (Rmult_le_reg_r (Y s - Y e)); [lra|]. unfold Rdiv. rewrite Rmult_assoc, Rinv_l; lra. }
    apply A2 in O; [|exact I|unfold level; lra]. destruct LE as [->|(h & ->)]; [destruct O|]. destruct O as [O|[]]. cbn [map]. rewrite O. reflexivity.
  - destruct LE as [->|(h & ->)]; [reflexivity|]. exfalso. destruct (A1 (fst h) (or_introl eq_refl)) as (_ & x & _ & x' & y' & (t & Ht & _ & EY) & _ & D).
    apply S. clear - V1 V2 Ht EY D S P. set (d := / 10 ^ n) in *. set (u := Y s - y) in *. set (v := Y e - y) in *.
    assert (EU : y' - y = (1 - t) * u + t * v) by (unfold u, v; rewrite EY; ring). rewrite Rabs_minus_sym, EU in D. clearbody u v d. clear EY EU.
    assert (D' : - d <= (1 - t) * u + t * v <= d) by (unfold Rabs in D; destruct (Rcase_abs _) in D; lra). clear D.
    unfold Rabs in V1, V2. destruct (Rcase_abs u), (Rcase_abs v).
    + assert (0 < (1 - t) * (- u - d) + t * (- v - d)) by (destruct (Rlt_dec t 1); [|assert (t = 1) by lra; subst; lra]; assert (0 < (1 - t) * (- u - d)) by (apply Rmult_lt_0_compat; lra); assert (0 <= t * (- v - d)) by (apply Rmult_le_pos; lra); lra). lra.
    + nra.
    + nra.
    + assert (0 < (1 - t) * (u - d) + t * (v - d)) by (destruct (Rlt_dec t 1); [|assert (t = 1) by lra; subst; lra]; assert (0 < (1 - t) * (u - d)) by (apply Rmult_lt_0_compat; lra); assert (0 <= t * (v - d)) by (apply Rmult_le_pos; lra); lra). lra.
Qed.
(** For an outline of straight lines and a height that is not that of a corner, the intercepts are exactly the crossings, each once. *)
Theorem C64_crossings fuel n (p : path RNum) (y : R) : Forall tame p -> (forall x y, inDrawing p x y -> 0 <= x /\ 0 <= y) ->
  (exists x y, inDrawing p x y /\ / 10 ^ n < x) -> Forall (clearSeg n y) p -> Forall (offVertex n y) p ->
  exists l, HorizontalIntercepts (BezierOps RTrig RBMath fuel) (Z.of_nat n) p (Fin y) = Ok l /\ leftToRight l /\ Permutation l (flat_map (crossing y) p).
Proof.
  intros H Hp HX HC HV. destruct (box_sides fuel p n H Hp HX) as (l & t & r & b & E & W & IN).
  destruct (each_exists (Intersect (BezierOps RTrig RBMath fuel) (Z.of_nat n) (Line (pnt l y) (pnt r y))) (fun g hs => map fst hs = crossing y g) p) as (hs & EH & A).
  { intros g Hg. rewrite Forall_forall in H, HC, HV. apply hit_exact; [exact W|apply H; exact Hg|apply HC; exact Hg|apply HV; exact Hg|]. intros V x y' O. apply (IN x y'). exists g. auto. }
  assert (EQ : map fst (concat hs) = flat_map (crossing y) p).
  { clear - A. induction A as [|g h p hs HA A IH]; [reflexivity|]. cbn [concat flat_map]. etransitivity; [apply map_app|]. f_equal; [exact HA|exact IH]. }
  exists (sortX (map fst (concat hs))). split.
  { unfold HorizontalIntercepts. rewrite E. cbn [bind]. change (@NewPoint RNum (px (pnt l t)) (Fin y)) with (@NewPoint RNum (Fin l) (Fin y)). change (@NewPoint RNum (px (pnt r b)) (Fin y)) with (@NewPoint RNum (Fin r) (Fin y)).
    rewrite !NewPoint_fin. rewrite EH. reflexivity. }
  rewrite EQ. split; [|symmetry; apply sortX_perm]. apply sortX_sorted. apply Forall_forall. intros q Hq. apply in_flat_map in Hq. destruct Hq as (g & _ & Hq).
  destruct g as [s e|s e|s cs e ce]; cbn in Hq; try contradiction. destruct (Rlt_dec _ _); [|contradiction]. destruct Hq as [<-|[]]. apply finitePt_pnt.
Qed.
Print Assumptions C64_crossings.

Lemma same_sign u v e : ~ u * v < 0 -> u <> 0 -> v <> 0 -> 0 < v * e <-> 0 < u * e.
Proof.
  intros S NU NV. assert (P : 0 < u * v). { destruct (Rle_lt_or_eq_dec 0 (u * v)) as [P|P]; [lra|exact P|]. symmetry in P. apply Rmult_integral in P. tauto. }
  split; intros H; nra.
Qed.
Lemma same_sign' u v e : u * v < 0 -> e <> 0 -> ~ 0 < v * e -> 0 < u * e.
Proof.
  intros S NE H. assert (v * e < 0). { destruct (Req_dec (v * e) 0) as [Z|Z]; [|lra]. apply Rmult_integral in Z. destruct Z; [subst; lra|tauto]. }
  nra.
Qed.
(** the heights of the start and of the end of a chain of lines are on the same side if and only if the chain crosses an even number of times *)
Lemma crossing_parity y r s : finitePt s -> Forall finiteSeg r -> chain s r -> Forall (fun g => match g with Line a b => Y a <> y /\ Y b <> y | _ => False end) r -> Y s <> y ->
  (Nat.even (length (flat_map (crossing y) r)) = true <-> 0 < (Y s - y) * (Y (send (last r (Move s s))) - y)) /\ Y (send (last r (Move s s))) - y <> 0.
Proof.
  intros Fs F C V NS. revert s Fs C NS. induction r as [|g r IH]; intros s Fs C NS.
  - cbn [flat_map length last send]. split; [|lra]. split; [intros _|reflexivity]. apply (Rsqr_pos_lt (Y s - y)). lra.
  - inversion F as [|? ? Fg Fr]; inversion V as [|? ? Vg Vr]; subst. inversion C as [|? ? ? SP C']; subst. destruct g as [a b|a b|a b c d]; try contradiction. cbn [sstart send] in *.
    destruct Fg as [Fa Fb]. apply same_place_fin in SP; auto. subst a. destruct Vg as [Va Vb]. destruct (IH Fr Vr b Fb C' Vb) as [IH' NE']. clear IH.
    assert (EL : send (last (Line s b :: r) (Move s s)) = send (last r (Move b b))).
    { destruct r as [|h r]; [reflexivity|]. cbn [last]. clear. revert h. induction r as [|k r IH]; intros h; [reflexivity|]. apply IH. }
    rewrite EL. set (e := Y (send (last r (Move b b))) - y) in *. split; [|exact NE']. cbn [flat_map crossing]. destruct (Rlt_dec ((Y s - y) * (Y b - y)) 0) as [S|S].
    + cbn [app length]. rewrite Nat.even_succ, <- Nat.negb_even. destruct (Nat.even (length (flat_map (crossing y) r))).
      * split; [discriminate|]. assert (0 < (Y b - y) * e) by (apply IH'; auto). intros. exfalso. nra.
      * split; [intros _|reflexivity]. assert (NE : ~ 0 < (Y b - y) * e) by (intros Z; apply IH' in Z; discriminate). apply (same_sign' (Y s - y) (Y b - y) e); auto.
    + cbn [app]. rewrite IH'. apply same_sign; lra.
Qed.
(** A closed outline of straight lines is crossed an even number of times, so its intercepts can be taken in pairs. *)
Theorem C64_even fuel n (p : path RNum) o s r (y : R) : p = Move o s :: r -> Forall visible r -> connected p -> send (last r (Move s s)) = s ->
  Forall tame p -> (forall x y, inDrawing p x y -> 0 <= x /\ 0 <= y) -> (exists x y, inDrawing p x y /\ / 10 ^ n < x) -> Forall (clearSeg n y) p -> Forall (offVertex n y) p ->
  exists l, HorizontalIntercepts (BezierOps RTrig RBMath fuel) (Z.of_nat n) p (Fin y) = Ok l /\ leftToRight l /\ Nat.Even (length l).
Proof.
  intros -> V C CL H Hp HX HC HV. destruct (C64_crossings fuel n _ y H Hp HX HC HV) as (l & E & S & P). exists l. split; [exact E|]. split; [exact S|].
  rewrite (Permutation_length P). cbn [flat_map crossing app]. inversion HV as [|? ? _ HV']; inversion H as [|? ? T H']; subst. inversion C as [|? ? ? _ C']; subst. cbn [sstart send] in *.
  destruct r as [|g r]; [exists 0%nat; reflexivity|]. assert (Fs : finitePt s) by apply T.
  assert (D : 0 < / 10 ^ n) by (apply Rinv_0_lt_compat, pow_lt; lra).
  assert (V' : Forall (fun g => match g with Line a b => Y a <> y /\ Y b <> y | _ => False end) (g :: r)).
  { clear - V HV' D. rewrite Forall_forall in *. intros h Hh. specialize (V h Hh). specialize (HV' h Hh). destruct h as [a b|a b|a b c d]; [destruct V| |destruct HV'].
    destruct HV' as [V1 V2]. split; intros Z; [rewrite Z in V1; replace (y - y) with 0 in V1 by ring; rewrite Rabs_R0 in V1|rewrite Z in V2; replace (y - y) with 0 in V2 by ring; rewrite Rabs_R0 in V2]; lra. }
  assert (NS : Y s <> y).
  { inversion C' as [|? ? ? SP _]; subst. inversion V' as [|? ? VG _]; subst. inversion H' as [|? ? TG _]; subst. destruct g as [a b|a b|a b c d]; try contradiction.
    apply same_place_fin in SP; [subst; tauto|exact Fs|apply TG]. }
  apply Nat.even_spec. apply (crossing_parity y (g :: r) s); [exact Fs| |exact C'|exact V'|exact NS|].
  - eapply Forall_impl; [|exact H']. intros h [F _]. exact F.
  - rewrite CL. apply (Rsqr_pos_lt (Y s - y)). lra.
Qed.
Print Assumptions C64_even.

(** *** findings, in float64 *)
Definition coordsOf (r : res (list (Pt FNum))) : list (T FNum * T FNum) := match r with Ok l => map (fun q => (px q, py q)) l | _ => [] end.
(** a square from (-3,0) to (3,4): the box with whitespace starts at 0, so its left side at the height 2 is not found *)
Theorem C64_left_refuted : coordsOf (HorizontalIntercepts noCurves 3 [mv 0 0 (-3) 0; ln (-3) 0 3 0; ln 3 0 3 4; ln 3 4 (-3) 4; ln (-3) 4 (-3) 0] (fz 2)) = [(fz 3, fz 2)].
Proof. vm_compute. reflexivity. Qed.
(** a rectangle whose sides are drawn in two pieces each: at the height of the joints every side is reported twice *)
Theorem C64_corner_refuted : coordsOf (HorizontalIntercepts noCurves 3 [mv 0 0 1 0; ln 1 0 3 0; ln 3 0 3 2; ln 3 2 3 4; ln 3 4 1 4; ln 1 4 1 2; ln 1 2 1 0] (fz 2)) = [(fz 1, fz 2); (fz 1, fz 2); (fz 3, fz 2); (fz 3, fz 2)].
Proof. vm_compute. reflexivity. Qed.

(** *** examples *)
(** a zigzag outline with four crossings *)
Example C64_example : coordsOf (HorizontalIntercepts noCurves 3 [mv 0 0 1 0; ln 1 0 9 0; ln 9 0 9 4; ln 9 4 5 0; ln 5 0 1 4; ln 1 4 1 0] (fz 1)) = [(fz 1, fz 1); (fz 4, fz 1); (fz 6, fz 1); (fz 9, fz 1)].
Proof. vm_compute. reflexivity. Qed.
Definition zag : path RNum := [Move (pnt 0 0) (pnt 1 0); Line (pnt 1 0) (pnt 9 0); Line (pnt 9 0) (pnt 9 4); Line (pnt 9 4) (pnt 5 0); Line (pnt 5 0) (pnt 1 4); Line (pnt 1 4) (pnt 1 0)].
Ltac absl := repeat match goal with |- context [Rabs ?x] => (assert (0 <= x) by lra; rewrite (Rabs_right x) by lra) || (assert (x <= 0) by lra; rewrite (Rabs_left1 x) by lra) end; try lra.
Example C64_zag : Forall tame zag /\ (forall x y, inDrawing zag x y -> 0 <= x /\ 0 <= y) /\ (exists x y, inDrawing zag x y /\ / 10 ^ 3 < x) /\ Forall (clearSeg 3 1) zag /\ Forall (offVertex 3 1) zag /\
  connected zag /\ send (last (tl zag) (Move (pnt 1 0) (pnt 1 0))) = pnt 1 0 /\ Permutation [pnt 1 1; pnt 4 1; pnt 6 1; pnt 9 1] (flat_map (crossing 1) zag).
Proof.
  split; [repeat constructor|]. split; [|split; [|split; [|split; [|split; [|split]]]]].
  - intros x y (g & Hg & V & (t & Ht & O)). cbn [In zag] in Hg. repeat destruct Hg as [<-|Hg]; cbn in V; try contradiction; rewrite ?pnt_X, ?pnt_Y in O; nra.
  - exists 9, 0. split; [|lra]. exists (Line (pnt 1 0) (pnt 9 0)). split; [right; left; reflexivity|]. split; [exact I|]. exists 1. rewrite !pnt_X, !pnt_Y. lra.
  - unfold zag. repeat apply Forall_cons; try apply Forall_nil; cbn [clearSeg]; unfold clearLine; rewrite ?pnt_X, ?pnt_Y; try exact I; try (left; reflexivity); right;
      (split; [absl|]); try (left; reflexivity); right.
    + replace ((0 - 4) / (5 - 9)) with 1 by field. absl.
    + replace ((4 - 0) / (1 - 5)) with (-1) by field. absl.
  - unfold zag. repeat apply Forall_cons; try apply Forall_nil; cbn [offVertex]; rewrite ?pnt_Y; try exact I; split; absl.
  - repeat constructor.
  - reflexivity.
  - unfold zag. cbn [flat_map crossing]. rewrite !pnt_X, !pnt_Y.
    repeat match goal with |- context [Rlt_dec ?a ?b] => ((assert (a < b) by lra) || (assert (~ a < b) by lra)); destruct (Rlt_dec a b); try contradiction end.
    cbn [app]. replace (9 + (1 - 0) / (4 - 0) * (9 - 9)) with 9 by field. replace (9 + (1 - 4) / (0 - 4) * (5 - 9)) with 6 by field. replace (5 + (1 - 0) / (4 - 0) * (1 - 5)) with 4 by field. replace (1 + (1 - 4) / (0 - 4) * (1 - 1)) with 1 by field.
    exact (Permutation_rev [pnt 1 1; pnt 4 1; pnt 6 1; pnt 9 1]).
Qed.
(** an arch touching the height 4 in its middle *)
Definition arch : path RNum := [Move (pnt 0 0) (pnt 5 1); Curve (pnt 5 1) (pnt 5 5) (pnt 13 1) (pnt 13 5)].
Example C64_arch : exists l, HorizontalIntercepts (BezierOps RTrig RBMath 9) 3 arch (Fin 4) = Ok l /\ In (pnt 9 4) l /\ forall q, In q l -> Y q = 4.
Proof.
  destruct (C64_intercepts_partial 9 3 arch 4) as (l & E & _ & A & B).
  - repeat constructor; cbn; unfold Rabs; destruct (Rcase_abs _); lra.
  - intros x y (g & Hg & V & (t & Ht & O)). cbn [In arch] in Hg. destruct Hg as [<-|[<-|[]]]; [destruct V|]. rewrite !pnt_X, !pnt_Y in O. destruct O as [-> ->]. unfold cubic.
    assert (0 <= t * t) by nra. assert (0 <= t * t * t) by nra. assert (0 <= (1 - t) * (1 - t)) by nra. assert (0 <= (1 - t) * (1 - t) * (1 - t)) by nra. assert (0 <= (1 - t) * (1 - t) * t) by nra. assert (0 <= (1 - t) * (t * t)) by nra. split; nra.
  - exists 9, 4. split; [|lra]. exists (Curve (pnt 5 1) (pnt 5 5) (pnt 13 1) (pnt 13 5)). split; [right; left; reflexivity|]. split; [exact I|]. exists (1/2). rewrite !pnt_X, !pnt_Y. unfold cubic. lra.
  - unfold arch. apply Forall_cons; [exact I|]. apply Forall_cons; [|apply Forall_nil]. cbn [clearSeg]. unfold clearCurve, settled. rewrite !pnt_Y.
    split; [left; lra|]. split; [intros _; right; absl|]. split; [lra|]. lra.
  - exists l. split; [exact E|]. split.
    + apply (B (Curve (pnt 5 1) (pnt 5 5) (pnt 13 1) (pnt 13 5))); [right; left; reflexivity|exact I|intros []|]. exists (1/2). rewrite !pnt_X, !pnt_Y. unfold cubic. lra.
    + intros q Hq. destruct (A q Hq) as (x & g & -> & _). apply pnt_Y.
Qed.
