(** C57: a curve crosses a stretch of line whichever way the line is drawn. *)
From Coq Require Import List ZArith Bool Reals Lra Lia.
From Verif Require Import Num RealNum RealTrig PathModel SegOps Bezier PathSpec GeomSpec BezierProofs RootsProofs Prop_C56.
Import ListNotations.
Local Open Scope R_scope.

(** [x] lies between [u] and [v], give or take a millionth *)
Definition near_between (u v x : R) : Prop := Rmin u v - / 1000000 <= x <= Rmax u v + / 1000000.

Lemma Approx_iff x y : Approx (Fin x : T RNum) (Fin y) = true <-> Rabs (x - y) <= / 1000000.
Proof.
  unfold Approx. fin. rewrite fdiv by lra. change (nabs (Fin (x - y) : T RNum)) with (Fin (Rabs (x - y)) : T RNum). fin. destruct (Rleb_spec (Rabs (x - y)) (1 / 1000000)); split; (discriminate || auto); lra.
Qed.
Lemma between_iff r u v : between (Fin r : T RNum) (Fin u) (Fin v) = true <-> near_between u v r.
Proof.
  unfold between, near_between. pose proof (Approx_iff r u) as A. pose proof (Approx_iff r v) as B. unfold geb. fin.
  assert (RU : Rabs (r - u) <= / 1000000 <-> u - / 1000000 <= r <= u + / 1000000) by (split; [intros H; unfold Rabs in H; destruct (Rcase_abs _) in H; lra|intros; apply Rabs_le; lra]).
  assert (RV : Rabs (r - v) <= / 1000000 <-> v - / 1000000 <= r <= v + / 1000000) by (split; [intros H; unfold Rabs in H; destruct (Rcase_abs _) in H; lra|intros; apply Rabs_le; lra]).
  rewrite RU in A. rewrite RV in B. unfold Rmin, Rmax.
  destruct (Approx (Fin r : T RNum) (Fin u)); [assert (u - / 1000000 <= r <= u + / 1000000) by (apply A; auto); cbn; destruct (Rle_dec u v); split; auto; lra|].
  destruct (Approx (Fin r : T RNum) (Fin v)); [assert (v - / 1000000 <= r <= v + / 1000000) by (apply B; auto); cbn; destruct (Rle_dec u v); split; auto; lra|].
  assert (NA : ~ (u - / 1000000 <= r <= u + / 1000000)) by (intros X; apply A in X; discriminate). assert (NB : ~ (v - / 1000000 <= r <= v + / 1000000)) by (intros X; apply B in X; discriminate).
  cbn [orb]. destruct (Rleb_spec u r), (Rleb_spec r v), (Rleb_spec r u), (Rleb_spec v r), (Rle_dec u v); cbn; split; (discriminate || auto); intros; try lra; exfalso; (apply NA; lra) || (apply NB; lra).
Qed.
Lemma nmin_fin x y : @nmin RNum (Fin x) (Fin y) = Fin (Rmin x y).
Proof. unfold nmin, Rmin. fin. destruct (Rltb_spec x y), (Rle_dec x y); f_equal; lra. Qed.
Lemma nmax_fin x y : @nmax RNum (Fin x) (Fin y) = Fin (Rmax x y).
Proof. unfold nmax, Rmax. fin. destruct (Rltb_spec x y), (Rle_dec x y); f_equal; lra. Qed.

Lemma IntersectsLine_in c a b (t : R) : finiteCrv c -> finitePt a -> finitePt b -> X a <> X b \/ Y a <> Y b -> told_apart a b c ->
  In (Fin t) (IntersectsLine RTrig RBMath c a b) <->
  (0 <= t <= 1 /\ on_line a b (curveX c t) (curveY c t)) /\ near_between (X a) (X b) (curveX c t) /\ near_between (Rmin (Y a) (Y b)) (Y b) (curveY c t).
Proof.
  intros F Fa Fb N T. rewrite <- (proj1 (C56_meets_partial c a b F Fa Fb N T) t). unfold IntersectsProjectedLine, IntersectsLine. rewrite filter_In.
  rewrite FindPoint_spec by exact F. rewrite (px_fin _ Fa), (py_fin _ Fa), (px_fin _ Fb), (py_fin _ Fb), !nmin_fin, nmax_fin. cbn [px py pnt]. unfold pnt. cbn [px py].
  rewrite andb_true_iff, !between_iff. assert (E : near_between (Rmin (X a) (X b)) (Rmax (X a) (X b)) (curveX c t) <-> near_between (X a) (X b) (curveX c t)).
  { unfold near_between. rewrite (Rmin_left (Rmin _ _) (Rmax _ _)), (Rmax_right (Rmin _ _) (Rmax _ _)) by (unfold Rmin, Rmax; destruct (Rle_dec (X a) (X b)); lra). reflexivity. }
  rewrite E. tauto.
Qed.

(** For a line drawn towards larger Y (or level), IntersectsLine returns exactly the parameters at which the curve is on the line between its
    ends.  Missing: lines drawn towards smaller Y, where it fails ([C57_downward_refuted]). *)
Theorem C57_crossing_partial : forall (c : crv RNum) (a b : Pt RNum) (t : R), finiteCrv c -> finitePt a -> finitePt b -> X a <> X b \/ Y a <> Y b -> told_apart a b c -> Y a <= Y b ->
  In (Fin t) (IntersectsLine RTrig RBMath c a b) <->
  0 <= t <= 1 /\ on_line a b (curveX c t) (curveY c t) /\ near_between (X a) (X b) (curveX c t) /\ near_between (Y a) (Y b) (curveY c t).
Proof. intros c a b t F Fa Fb N T L. rewrite (IntersectsLine_in c a b t F Fa Fb N T). rewrite (Rmin_left _ _ L). tauto. Qed.
Print Assumptions C57_crossing_partial.

(** Finding: a level curve crossing a vertical line in the middle is missed if the line is drawn from (0,1) to (0,-1), and found if it
    is drawn from (0,-1) to (0,1). *)
Definition level : crv RNum := @mkCrv RNum (pnt (-3) 0) (pnt (-1) 0) (pnt 3 0) (pnt 1 0).
Lemma level_off p : off (pnt 0 1) (pnt 0 (-1)) p = X p /\ off (pnt 0 (-1)) (pnt 0 1) p = - X p.
Proof.
  unfold off. rewrite !pnt_X, !pnt_Y. replace ((0 - 0) * (0 - 0) + (-1 - 1) * (-1 - 1)) with (2 * 2) by ring. replace ((0 - 0) * (0 - 0) + (1 - -1) * (1 - -1)) with (2 * 2) by ring. rewrite sqrt_square by lra. split; field.
Qed.
Lemma level_apart : told_apart (pnt 0 1) (pnt 0 (-1)) level /\ told_apart (pnt 0 (-1)) (pnt 0 1) level.
Proof.
  split; unfold told_apart; rewrite !(fun p => proj1 (level_off p)) || rewrite !(fun p => proj2 (level_off p)); unfold level; cbn [c_s c_cs c_ce c_e]; rewrite !pnt_X;
    (split; [left; lra|split; [intros _; left; lra|split; [intros _ _; right|lra]]]); match goal with |- _ < Rabs ?x => assert (E : x = 6 \/ x = -6) by lra; destruct E as [-> | ->] end; unfold Rabs; destruct (Rcase_abs _); lra.
Qed.
Theorem C57_downward_refuted : exists (c : crv RNum) (a b : Pt RNum) (t : R), finiteCrv c /\ finitePt a /\ finitePt b /\ told_apart a b c /\
  0 < t < 1 /\ on_line a b (curveX c t) (curveY c t) /\ X a <= curveX c t <= X b /\ Y b < curveY c t < Y a /\
  IntersectsLine RTrig RBMath c a b = [] /\ In (Fin t) (IntersectsLine RTrig RBMath c b a).
Proof.
  exists level, (pnt 0 1), (pnt 0 (-1)), (1 / 2). assert (F : finiteCrv level) by (repeat split; apply finitePt_pnt). destruct level_apart as [T1 T2].
  split; [exact F|]. split; [apply finitePt_pnt|]. split; [apply finitePt_pnt|]. split; [exact T1|]. split; [lra|].
  assert (EX : forall t, curveX level t = -3 + 6 * t) by (intros; unfold curveX, cubic, level; cbn [c_s c_cs c_ce c_e]; rewrite !pnt_X; ring). assert (EY : forall t, curveY level t = 0) by (intros; unfold curveY, cubic, level; cbn [c_s c_cs c_ce c_e]; rewrite !pnt_Y; ring).
  split; [unfold on_line; rewrite EX, EY, !pnt_X, !pnt_Y; lra|]. split; [rewrite EX, !pnt_X; lra|]. split; [rewrite EY, !pnt_Y; lra|].
  assert (N1 : X (pnt 0 1) <> X (pnt 0 (-1)) \/ Y (pnt 0 1) <> Y (pnt 0 (-1))) by (right; rewrite !pnt_Y; lra). assert (N2 : X (pnt 0 (-1)) <> X (pnt 0 1) \/ Y (pnt 0 (-1)) <> Y (pnt 0 1)) by (right; rewrite !pnt_Y; lra).
  split.
  - destruct (IntersectsLine RTrig RBMath level (pnt 0 1) (pnt 0 (-1))) as [|u r] eqn:E; [reflexivity|]. exfalso.
    assert (I : In u (IntersectsLine RTrig RBMath level (pnt 0 1) (pnt 0 (-1)))) by (rewrite E; left; reflexivity).
    assert (I2 : In u (IntersectsProjectedLine RTrig RBMath level (pnt 0 1) (pnt 0 (-1)))) by (unfold IntersectsLine in I; apply filter_In in I; apply I).
    destruct (proj2 (C56_meets_partial level _ _ F (finitePt_pnt _ _) (finitePt_pnt _ _) N1 T1) u I2) as (t & ->).
    apply (IntersectsLine_in level _ _ t F (finitePt_pnt _ _) (finitePt_pnt _ _) N1 T1) in I. destruct I as (_ & _ & H). rewrite EY, !pnt_Y in H. rewrite (Rmin_right 1 (-1)) in H by lra. unfold near_between in H. rewrite Rmax_left in H by lra. lra.
  - apply (C57_crossing_partial level _ _ (1 / 2) F (finitePt_pnt _ _) (finitePt_pnt _ _) N2 T2); [rewrite !pnt_Y; lra|]. unfold on_line, near_between. rewrite !EX, EY, !pnt_X, !pnt_Y. rewrite !Rmin_left, !Rmax_right by lra. lra.
Qed.
Print Assumptions C57_downward_refuted.

(** the level curve and the vertical line drawn upwards *)
Example C57_example : finiteCrv level /\ told_apart (pnt 0 (-1)) (pnt 0 1) level /\ Y (pnt 0 (-1)) <= Y (pnt 0 1) /\ In (Fin (1 / 2)) (IntersectsLine RTrig RBMath level (pnt 0 (-1)) (pnt 0 1)).
Proof.
  assert (F : finiteCrv level) by (repeat split; apply finitePt_pnt). destruct level_apart as [_ T]. split; [exact F|]. split; [exact T|]. split; [rewrite !pnt_Y; lra|].
  apply (C57_crossing_partial level _ _ (1 / 2) F (finitePt_pnt _ _) (finitePt_pnt _ _)); [right; rewrite !pnt_Y; lra|exact T|rewrite !pnt_Y; lra|].
  unfold on_line, near_between, curveX, curveY, cubic, level; cbn [c_s c_cs c_ce c_e]; rewrite !pnt_X, !pnt_Y. rewrite !Rmin_left, !Rmax_right by lra. lra.
Qed.
