(** C76: where two curves meet. *)
From Coq Require Import String Ascii List ZArith NArith Bool Reals Lra Lia Arith.
From Verif Require Import Num RealNum RealTrig PathModel SegOps Bezier PathSpec GeomSpec BezierProofs RootsProofs ReduceProofs TextProofs.
From Verif Require Prop_C33 Prop_C36.
Import ListNotations.
Local Open Scope R_scope.

(** The points of two curves with the parameters u and v meet. *)
Definition meet (c d : crv RNum) (u v : R) : Prop := curveX c u = curveX d v /\ curveY c u = curveY d v.
(** how far apart they are, along the axes *)
Definition apart (c d : crv RNum) (u v : R) : R := Rabs (curveX c u - curveX d v) + Rabs (curveY c u - curveY d v).

(** *** boxes *)
Lemma on_curve c u : 0 <= u <= 1 -> onSeg (crvSeg c) (curveX c u) (curveY c u).
Proof. intros H. exists u. split; [exact H|]. split; reflexivity. Qed.
Lemma on_projX c u : 0 <= u <= 1 -> projX (onSeg (crvSeg c)) (curveX c u). Proof. intros H. exists (curveY c u). apply on_curve, H. Qed.
Lemma on_projY c u : 0 <= u <= 1 -> projY (onSeg (crvSeg c)) (curveY c u). Proof. intros H. exists (curveX c u). apply on_curve, H. Qed.
Lemma box_size c : finiteCrv c -> smallCrv c -> exists s, boxSize c = Fin s /\ (forall u v, 0 <= u <= 1 -> 0 <= v <= 1 -> apart c c u v <= s) /\ exists u v u' v', (0 <= u <= 1 /\ 0 <= v <= 1 /\ 0 <= u' <= 1 /\ 0 <= v' <= 1) /\ s = (curveX c u - curveX c v) + (curveY c u' - curveY c v').
Proof.
  intros F S. pose proof (BoundingBox_tight c F S) as T. unfold boxSize. destruct (BoundingBox c) as [tl br]. cbn [fst snd] in T. destruct T as (F1 & F2 & (BX & (y1 & u1 & U1 & E1 & _) & (y2 & u2 & U2 & E2 & _)) & (BY & (x3 & u3 & U3 & _ & E3) & (x4 & u4 & U4 & _ & E4))).
  rewrite (px_fin _ F1), (px_fin _ F2), (py_fin _ F1), (py_fin _ F2). fin. eexists. split; [reflexivity|]. split.
  - intros u v Hu Hv. unfold apart. pose proof (BX _ (on_projX c u Hu)). pose proof (BX _ (on_projX c v Hv)). pose proof (BY _ (on_projY c u Hu)). pose proof (BY _ (on_projY c v Hv)).
    unfold Rabs. destruct (Rcase_abs _), (Rcase_abs _); lra.
  - exists u2, u1, u4, u3. split; [auto|]. unfold curveX, curveY. rewrite <- E1, <- E2, <- E3, <- E4. reflexivity.
Qed.
(** boxes of curves overlap if neither is, with all its points, on one side of the other *)
Lemma overlap_points c d : finiteCrv c -> smallCrv c -> finiteCrv d -> smallCrv d ->
  (CurveOverlaps c d = true <-> (exists u v, 0 <= u <= 1 /\ 0 <= v <= 1 /\ curveX c u < curveX d v) /\ (exists u v, 0 <= u <= 1 /\ 0 <= v <= 1 /\ curveX d v < curveX c u) /\
    (exists u v, 0 <= u <= 1 /\ 0 <= v <= 1 /\ curveY c u < curveY d v) /\ (exists u v, 0 <= u <= 1 /\ 0 <= v <= 1 /\ curveY d v < curveY c u)).
Proof.
  intros F S F' S'. pose proof (BoundingBox_tight c F S) as T. pose proof (BoundingBox_tight d F' S') as T'. unfold CurveOverlaps. destruct (BoundingBox c) as [tl br], (BoundingBox d) as [tl' br']. cbn [fst snd] in T, T'.
  destruct T as (F1 & F2 & (BX & (y1 & u1 & U1 & E1 & _) & (y2 & u2 & U2 & E2 & _)) & (BY & (x3 & u3 & U3 & _ & E3) & (x4 & u4 & U4 & _ & E4))).
  destruct T' as (F1' & F2' & (BX' & (y1' & v1 & V1 & G1 & _) & (y2' & v2 & V2 & G2 & _)) & (BY' & (x3' & v3 & V3 & _ & G3) & (x4' & v4 & V4 & _ & G4))).
  rewrite Prop_C36.C36_exact_degenerate by assumption. split.
  - intros ((A & B) & (C & D)). split; [exists u1, v2; unfold curveX; rewrite <- E1, <- G2; auto|]. split; [exists u2, v1; unfold curveX; rewrite <- E2, <- G1; auto|]. split; [exists u3, v4; unfold curveY; rewrite <- E3, <- G4; auto|exists u4, v3; unfold curveY; rewrite <- E4, <- G3; auto].
  - intros ((a1 & b1 & A1 & B1 & L1) & (a2 & b2 & A2 & B2 & L2) & (a3 & b3 & A3 & B3 & L3) & (a4 & b4 & A4 & B4 & L4)).
    pose proof (BX _ (on_projX c a1 A1)). pose proof (BX _ (on_projX c a2 A2)). pose proof (BY _ (on_projY c a3 A3)). pose proof (BY _ (on_projY c a4 A4)).
    pose proof (BX' _ (on_projX d b1 B1)). pose proof (BX' _ (on_projX d b2 B2)). pose proof (BY' _ (on_projY d b3 B3)). pose proof (BY' _ (on_projY d b4 B4)). repeat split; lra.
Qed.
(** overlapping boxes: no two points are farther apart than both boxes are large *)
Lemma overlap_apart c d s s' u v : finiteCrv c -> smallCrv c -> finiteCrv d -> smallCrv d -> CurveOverlaps c d = true -> boxSize c = Fin s -> boxSize d = Fin s' -> 0 <= u <= 1 -> 0 <= v <= 1 -> apart c d u v <= s + s'.
Proof.
  intros F S F' S' HO. pose proof (BoundingBox_tight c F S) as T. pose proof (BoundingBox_tight d F' S') as T'. unfold CurveOverlaps in HO. unfold boxSize. destruct (BoundingBox c) as [tl br], (BoundingBox d) as [tl' br']. cbn [fst snd] in T, T'.
  destruct T as (F1 & F2 & (BX & _) & (BY & _)). destruct T' as (F1' & F2' & (BX' & _) & (BY' & _)). apply Prop_C36.C36_exact_degenerate in HO; try assumption.
  rewrite (px_fin _ F1), (px_fin _ F2), (py_fin _ F1), (py_fin _ F2), (px_fin _ F1'), (px_fin _ F2'), (py_fin _ F1'), (py_fin _ F2'). fin. intros E E' Hu Hv. injection E as <-. injection E' as <-.
  pose proof (BX _ (on_projX c u Hu)). pose proof (BY _ (on_projY c u Hu)). pose proof (BX' _ (on_projX d v Hv)). pose proof (BY' _ (on_projY d v Hv)).
  unfold apart, Rabs. destruct (Rcase_abs _), (Rcase_abs _); lra.
Qed.

(** *** rounding *)
(** m/100000 is within half a unit of x, and what is reported for x *)
Definition rounded (x : R) (m : nat) : Prop := Rabs (INR m / 100000 - x) <= 1 / 200000.
Lemma round_spec (x : R) : 0 <= x -> exists m, @nround RNum RBMath (Fin x) = Fin (INR m) /\ Rabs (INR m - x) <= 1 / 2.
Proof.
  intros H. cbn [nround RBMath]. unfold er_round. destruct (Rltb_spec x 0); [lra|]. rewrite (Rabs_right x) by lra. destruct (base_Int_part (x + 1 / 2)) as [B1 B2]. set (z := Int_part (x + 1 / 2)) in *.
  assert (0 <= z)%Z. { apply Z.lt_succ_r. apply lt_IZR. rewrite succ_IZR. lra. } exists (Z.to_nat z). rewrite INR_IZR_INZ, Z2Nat.id by assumption. split; [f_equal; ring|]. unfold Rabs. destruct (Rcase_abs _); lra.
Qed.
Lemma mid_spec (a b : R) : 0 <= a + b -> exists m, @div RNum (nround RBMath (@div RNum (@mul RNum (ofZ 100000) (@add RNum (Fin a) (Fin b))) two)) (ofZ 100000) = Fin (INR m / 100000) /\ rounded ((a + b) / 2) m.
Proof.
  intros H. unfold two. fin. rewrite fdiv by lra. destruct (round_spec (100000 * (a + b) / 2)) as (m & -> & Hm); [lra|]. rewrite fdiv by lra. exists m. split; [reflexivity|]. unfold rounded.
  replace (INR m / 100000 - (a + b) / 2) with ((INR m - 100000 * (a + b) / 2) / 100000) by field. unfold Rdiv at 1. rewrite Rabs_mult, (Rabs_right (/ 100000)) by lra. lra.
Qed.
Definition grid (p : T RNum * T RNum) : Prop := exists m n, p = (Fin (INR m / 100000) : T RNum, Fin (INR n / 100000) : T RNum).
Lemma fmt_grid m : @fmt RNum 5 (Fin (INR m / 100000)) = render 5 (FTdec false (N.of_nat m)).
Proof.
  unfold fmt. cbn [fmtd RNum]. unfold er_fmtd. assert (0 <= INR m) by apply pos_INR. destruct (Rltb_spec (INR m / 100000) 0); [lra|]. rewrite Rabs_right by lra. replace (INR m / 100000 * 10 ^ 5) with (INR m) by field.
  do 2 f_equal. unfold Rround_he. destruct (base_Int_part (INR m)) as [B1 B2]. assert (E : Int_part (INR m) = Z.of_nat m). { apply Z.le_antisymm; [apply le_IZR; rewrite <- INR_IZR_INZ; lra|]. apply Z.lt_succ_r. apply lt_IZR. rewrite succ_IZR, <- INR_IZR_INZ. lra. }
  rewrite E, <- INR_IZR_INZ. destruct (Rlt_dec (INR m - INR m) (1 / 2)); [|lra]. rewrite <- nat_N_Z. apply N2Z.id.
Qed.
Lemma key_inj p q : grid p -> grid q -> pairKey (N := RNum) p = pairKey q -> p = q.
Proof.
  intros (m & n & ->) (m' & n' & ->). unfold pairKey. cbn [fst snd]. rewrite !fmt_grid. intros E. apply split_at in E; try (apply render_isnt; reflexivity). destruct E as [E1 E2]. apply render_inj in E1, E2. injection E1 as E1. injection E2 as E2. apply Nat2N.inj in E1, E2. subst. reflexivity.
Qed.
Lemma dedup_sub keys l p : In p (pairDedup_loop (N := RNum) keys l) -> In p l.
Proof. revert keys. induction l as [|q l IH]; intros keys; cbn [pairDedup_loop]; [auto|]. destruct (existsb _ _); [right; eauto|]. intros [->|H]; [left; reflexivity|right; eauto]. Qed.
Lemma dedup_keeps l : (forall q, In q l -> grid q) -> forall keys p, In p l -> In (pairKey p) keys \/ In p (pairDedup_loop (N := RNum) keys l).
Proof.
  intros HG. induction l as [|q l IH]; intros keys p; [intros []|]. intros HI. cbn [pairDedup_loop]. assert (IH' := IH (fun q Hq => HG q (or_intror Hq))). destruct (existsb (String.eqb (pairKey q)) keys) eqn:E.
  - destruct HI as [->|HI]; [|apply IH', HI]. left. apply existsb_exists in E. destruct E as (k & Hk & E). apply String.eqb_eq in E. subst. exact Hk.
  - destruct HI as [->|HI]; [right; left; reflexivity|]. destruct (IH' (pairKey q :: keys) p HI) as [[E'|H]|H]; [|left; exact H|right; right; exact H]. apply key_inj in E'; [subst; right; left; reflexivity|apply HG; left; reflexivity|apply HG; right; exact HI].
Qed.

(** *** pairs *)
Lemma half_fin : @half RNum = Fin (1 / 2). Proof. unfold half, two. fin. rewrite fdiv by lra. reflexivity. Qed.
Definition halves (s : @cseg RNum) : @cseg RNum * @cseg RNum := splitAtS s (@half RNum).
Lemma halves_piece c s a b : piece c s a b -> piece c (fst (halves s)) a ((a + b) / 2) /\ piece c (snd (halves s)) ((a + b) / 2) b.
Proof. intros H. unfold halves. rewrite half_fin. replace ((a + b) / 2) with (a + (b - a) * (1 / 2)) by field. apply splitAt_piece; [exact H|lra]. Qed.
Definition loopAll (f : @cseg RNum -> @cseg RNum -> res (list (T RNum * T RNum))) : list (@cseg RNum * @cseg RNum) -> res (list (T RNum * T RNum)) :=
  fix loop ps := match ps with [] => Ok [] | p :: q => bind (f (fst p) (snd p)) (fun a => bind (loop q) (fun b => Ok (a ++ b))) end.
Definition four (c1 c2 : @cseg RNum) : list (@cseg RNum * @cseg RNum) := [(fst (halves c1), fst (halves c2)); (fst (halves c1), snd (halves c2)); (snd (halves c1), snd (halves c2)); (snd (halves c1), fst (halves c2))].
Lemma pairIteration_eq bm fuel th c1 c2 : pairIteration (N := RNum) bm (S fuel) th c1 c2 =
  if ltb (boxSize (cv c1)) th && ltb (boxSize (cv c2)) th then
    Ok [(div (nround bm (div (mul (ofZ 100000) (add (st1 c1) (st2 c1))) two)) (ofZ 100000), div (nround bm (div (mul (ofZ 100000) (add (st1 c2) (st2 c2))) two)) (ofZ 100000))]
  else bind (loopAll (pairIteration bm fuel th) (filter (fun p => CurveOverlaps (cv (fst p)) (cv (snd p))) (four c1 c2))) (fun l => Ok (pairDedup l)).
Proof. cbn [pairIteration]. unfold four, halves. destruct (splitAtS c1 half), (splitAtS c2 half). reflexivity. Qed.
Lemma loopAll_in f ps l : loopAll f ps = Ok l -> (forall v, In v l <-> exists p r, In p ps /\ f (fst p) (snd p) = Ok r /\ In v r) /\ forall p, In p ps -> exists r, f (fst p) (snd p) = Ok r /\ incl r l.
Proof.
  revert l. induction ps as [|p ps IH]; intros l; cbn [loopAll].
  - intros [= <-]. split; [|intros p []]. intros v. split; [intros []|]. intros (p & r & [] & _).
  - destruct (f (fst p) (snd p)) as [a| | |] eqn:E; cbn [bind]; try discriminate. fold (loopAll f). destruct (loopAll f ps) as [b| | |] eqn:EB; cbn [bind]; try discriminate. intros [= <-]. destruct (IH _ eq_refl) as [H1 H2]. split.
    + intros v. rewrite in_app_iff, H1. split.
      * intros [Hv|(q & r & Hq & Er & Hv)]; [exists p, a; split; [left; reflexivity|]; auto|exists q, r; split; [right; exact Hq|]; auto].
      * intros (q & r & [<-|Hq] & Er & Hv); [left; congruence|right; exists q, r; auto].
    + intros q [<-|Hq]; [exists a; split; [exact E|]; apply incl_appl, incl_refl|]. destruct (H2 q Hq) as (r & Er & Hr). exists r. split; [exact Er|]. apply incl_appr, Hr.
Qed.

(** small sections that overlap, around the parameters that are reported *)
Definition reported (th : R) (c d : crv RNum) (a1 b1 a2 b2 : R) (v : T RNum * T RNum) : Prop := exists m n c' d',
  v = (Fin (INR m / 100000) : T RNum, Fin (INR n / 100000) : T RNum) /\ rounded ((a1 + b1) / 2) m /\ rounded ((a2 + b2) / 2) n /\ 0 <= a1 < b1 /\ b1 <= 1 /\ 0 <= a2 < b2 /\ b2 <= 1 /\
  section c c' a1 b1 /\ section d d' a2 b2 /\ CurveOverlaps c' d' = true /\ exists s s', boxSize c' = Fin s /\ boxSize d' = Fin s' /\ s < th /\ s' < th.

Lemma leaf th c d s1 s2 a1 b1 a2 b2 : finiteCrv c -> smallCrv c -> finiteCrv d -> smallCrv d -> piece c s1 a1 b1 -> piece d s2 a2 b2 -> CurveOverlaps (cv s1) (cv s2) = true ->
  ltb (boxSize (cv s1)) (Fin th : T RNum) && ltb (boxSize (cv s2)) (Fin th : T RNum) = true ->
  reported th c d a1 b1 a2 b2 (div (nround RBMath (div (mul (ofZ 100000) (add (st1 s1) (st2 s1))) two)) (ofZ 100000), div (nround RBMath (div (mul (ofZ 100000) (add (st1 s2) (st2 s2))) two)) (ofZ 100000)).
Proof.
  intros F S F' S' (E1 & E2 & A1 & B1 & C1) (E3 & E4 & A2 & B2 & C2) HO HB. rewrite E1, E2, E3, E4. destruct (mid_spec a1 b1) as (m & -> & Hm); [lra|]. destruct (mid_spec a2 b2) as (n & -> & Hn); [lra|].
  exists m, n, (cv s1), (cv s2). do 10 (split; [assumption || reflexivity|]).
  destruct C1 as (FC & SC & _). destruct C2 as (FD & SD & _). destruct (box_size (cv s1) FC (SC S)) as (x & Ex & _). destruct (box_size (cv s2) FD (SD S')) as (y & Ey & _). rewrite Ex, Ey in HB. apply andb_prop in HB. destruct HB as [K1 K2].
  exists x, y. split; [exact Ex|]. split; [exact Ey|]. split; apply Rltb_true; assumption.
Qed.
Lemma four_piece c d s1 s2 a1 b1 a2 b2 p : piece c s1 a1 b1 -> piece d s2 a2 b2 -> In p (four s1 s2) -> exists x1 y1 x2 y2, piece c (fst p) x1 y1 /\ piece d (snd p) x2 y2.
Proof.
  intros P1 P2. destruct (halves_piece _ _ _ _ P1) as [Q1 Q2]. destruct (halves_piece _ _ _ _ P2) as [Q3 Q4]. unfold four. intros [<-|[<-|[<-|[<-|[]]]]]; cbn [fst snd]; do 4 eexists; eauto.
Qed.
Lemma pair_sound th c d : finiteCrv c -> smallCrv c -> finiteCrv d -> smallCrv d -> forall fuel s1 s2 a1 b1 a2 b2 l, piece c s1 a1 b1 -> piece d s2 a2 b2 -> CurveOverlaps (cv s1) (cv s2) = true ->
  pairIteration RBMath fuel (Fin th : T RNum) s1 s2 = Ok l -> forall v, In v l -> exists x1 y1 x2 y2, reported th c d x1 y1 x2 y2 v.
Proof.
  intros F S F' S'. induction fuel as [|f IH]; intros s1 s2 a1 b1 a2 b2 l P1 P2 HO; [discriminate|]. rewrite pairIteration_eq. destruct (_ && _) eqn:EB.
  - intros [= <-] v [<-|[]]. exists a1, b1, a2, b2. apply (leaf th c d s1 s2); assumption.
  - destruct (loopAll _ _) as [r| | |] eqn:EL; cbn [bind]; try discriminate. intros [= <-] v Hv. apply dedup_sub in Hv. apply (loopAll_in _ _ _ EL) in Hv. destruct Hv as (p & r' & Hp & Er & Hv). apply filter_In in Hp. destruct Hp as [Hp HO'].
    destruct (four_piece _ _ _ _ _ _ _ _ _ P1 P2 Hp) as (x1 & y1 & x2 & y2 & Q1 & Q2). exact (IH _ _ _ _ _ _ _ Q1 Q2 HO' Er v Hv).
Qed.
Lemma reported_grid th c d a1 b1 a2 b2 v : reported th c d a1 b1 a2 b2 v -> grid v.
Proof. intros (m & n & _ & _ & -> & _). exists m, n. reflexivity. Qed.
(** sections around u and v whose boxes do not overlap, though the sections meet *)
Definition touching (I J : R -> R -> Prop) (c d : crv RNum) (u v : R) : Prop := exists c' d' a1 b1 a2 b2, I a1 b1 /\ J a2 b2 /\ section c c' a1 b1 /\ section d d' a2 b2 /\ 0 <= a1 < b1 /\ b1 <= 1 /\ 0 <= a2 < b2 /\ b2 <= 1 /\ a1 <= u <= b1 /\ a2 <= v <= b2 /\ CurveOverlaps c' d' = false.
(** what two intervals hand on to their halves *)
Definition halving (I : R -> R -> Prop) : Prop := forall a b, I a b -> I a ((a + b) / 2) /\ I ((a + b) / 2) b.
Lemma pair_complete I J th c d u w : halving I -> halving J -> finiteCrv c -> smallCrv c -> finiteCrv d -> smallCrv d -> forall fuel s1 s2 a1 b1 a2 b2 l, piece c s1 a1 b1 -> piece d s2 a2 b2 -> I a1 b1 -> J a2 b2 -> CurveOverlaps (cv s1) (cv s2) = true -> a1 <= u <= b1 -> a2 <= w <= b2 ->
  pairIteration RBMath fuel (Fin th : T RNum) s1 s2 = Ok l -> (exists v x1 y1 x2 y2, In v l /\ reported th c d x1 y1 x2 y2 v /\ x1 <= u <= y1 /\ x2 <= w <= y2) \/ touching I J c d u w.
Proof.
  intros HalfI HalfJ F S F' S'. induction fuel as [|f IH]; intros s1 s2 a1 b1 a2 b2 l P1 P2 HI1 HJ1 HO Hu Hw; [discriminate|]. rewrite pairIteration_eq. destruct (_ && _) eqn:EB.
  - intros [= <-]. left. eexists. exists a1, b1, a2, b2. split; [left; reflexivity|]. split; [apply (leaf th c d s1 s2); assumption|]. auto.
  - destruct (loopAll _ _) as [r| | |] eqn:EL; cbn [bind]; try discriminate. intros [= <-]. assert (HG : forall q, In q r -> grid q).
    { intros q Hq. apply (loopAll_in _ _ _ EL) in Hq. destruct Hq as (p & r' & Hp & Er & Hv). apply filter_In in Hp. destruct Hp as [Hp HO']. destruct (four_piece _ _ _ _ _ _ _ _ _ P1 P2 Hp) as (x1 & y1 & x2 & y2 & Q1 & Q2).
      destruct (pair_sound th c d F S F' S' _ _ _ _ _ _ _ _ Q1 Q2 HO' Er q Hv) as (z1 & z2 & z3 & z4 & HR). eapply reported_grid, HR. }
    destruct (halves_piece _ _ _ _ P1) as [Q1 Q2]. destruct (halves_piece _ _ _ _ P2) as [Q3 Q4].
    destruct (HalfI _ _ HI1) as [HI2 HI3]. destruct (HalfJ _ _ HJ1) as [HJ2 HJ3].
    assert (exists p x1 y1 x2 y2, In p (four s1 s2) /\ piece c (fst p) x1 y1 /\ piece d (snd p) x2 y2 /\ I x1 y1 /\ J x2 y2 /\ x1 <= u <= y1 /\ x2 <= w <= y2) as (p & x1 & y1 & x2 & y2 & Hp & R1 & R2 & RI & RJ & Hu' & Hw').
    { unfold four. destruct (Rle_lt_dec u ((a1 + b1) / 2)) as [L1|G1], (Rle_lt_dec w ((a2 + b2) / 2)) as [L2|G2].
      - exists (fst (halves s1), fst (halves s2)). do 4 eexists. split; [left; reflexivity|]. split; [exact Q1|]. split; [exact Q3|]. split; [assumption|]. split; [assumption|]. split; lra.
      - exists (fst (halves s1), snd (halves s2)). do 4 eexists. split; [right; left; reflexivity|]. split; [exact Q1|]. split; [exact Q4|]. split; [assumption|]. split; [assumption|]. split; lra.
      - exists (snd (halves s1), fst (halves s2)). do 4 eexists. split; [right; right; right; left; reflexivity|]. split; [exact Q2|]. split; [exact Q3|]. split; [assumption|]. split; [assumption|]. split; lra.
      - exists (snd (halves s1), snd (halves s2)). do 4 eexists. split; [right; right; left; reflexivity|]. split; [exact Q2|]. split; [exact Q4|]. split; [assumption|]. split; [assumption|]. split; lra. }
    destruct (CurveOverlaps (cv (fst p)) (cv (snd p))) eqn:EO.
    + assert (HI : In p (filter (fun p => CurveOverlaps (cv (fst p)) (cv (snd p))) (four s1 s2))) by (apply filter_In; auto). destruct (proj2 (loopAll_in _ _ _ EL) p HI) as (r' & Er & Hr). destruct (IH _ _ _ _ _ _ _ R1 R2 RI RJ EO Hu' Hw' Er) as [(v & z1 & z2 & z3 & z4 & Hv & HR & K1 & K2)|HT]; [left|right; exact HT].
      exists v, z1, z2, z3, z4. split; [|split; [exact HR|split; assumption]]. pose proof (dedup_keeps r HG [] v (Hr _ Hv)) as K. destruct K as [K|K]; [destruct K|exact K].
    + right. destruct R1 as (_ & _ & A1 & B1 & C1). destruct R2 as (_ & _ & A2 & B2 & C2). exists (cv (fst p)), (cv (snd p)), x1, y1, x2, y2. repeat (split; [assumption|]). assumption.
Qed.

(** *** it ends *)
Lemma cubic_lipschitz a b c d : exists K, 0 <= K /\ forall s t, 0 <= s <= 1 -> 0 <= t <= 1 -> Rabs (cubic a b c d s - cubic a b c d t) <= K * Rabs (s - t).
Proof.
  set (A1 := 3 * (b - a)). set (A2 := 3 * (a - 2 * b + c)). set (A3 := d - 3 * c + 3 * b - a). exists (Rabs A1 + 2 * Rabs A2 + 3 * Rabs A3). pose proof (Rabs_pos A1). pose proof (Rabs_pos A2). pose proof (Rabs_pos A3). split; [lra|]. intros s t Hs Ht.
  replace (cubic a b c d s - cubic a b c d t) with ((A1 + A2 * (s + t) + A3 * (s * s + s * t + t * t)) * (s - t)) by (unfold cubic, A1, A2, A3; ring). rewrite Rabs_mult. apply Rmult_le_compat_r; [apply Rabs_pos|].
  assert (0 <= s * s <= 1) by nra. assert (0 <= s * t <= 1) by nra. assert (0 <= t * t <= 1) by nra.
  eapply Rle_trans; [apply Rabs_triang|]. apply Rplus_le_compat; [eapply Rle_trans; [apply Rabs_triang|]; apply Rplus_le_compat_l|]; rewrite Rabs_mult.
  - rewrite (Rabs_right (s + t)) by lra. rewrite (Rmult_comm 2). apply Rmult_le_compat_l; lra.
  - rewrite (Rabs_right (s * s + s * t + t * t)) by lra. rewrite (Rmult_comm 3). apply Rmult_le_compat_l; lra.
Qed.
Lemma section_size c : smallCrv c -> exists K, 0 <= K /\ forall c' a b, section c c' a b -> 0 <= a <= b -> b <= 1 -> exists s, boxSize c' = Fin s /\ s <= K * (b - a).
Proof.
  intros S. destruct (cubic_lipschitz (X (c_s c)) (X (c_cs c)) (X (c_ce c)) (X (c_e c))) as (K1 & P1 & L1). destruct (cubic_lipschitz (Y (c_s c)) (Y (c_cs c)) (Y (c_ce c)) (Y (c_e c))) as (K2 & P2 & L2).
  exists (K1 + K2). split; [lra|]. intros c' a b (F & S' & E) Hab Hb. destruct (box_size c' F (S' S)) as (s & Es & _ & u & v & u' & v' & (U & V & U' & V') & ->). eexists. split; [exact Es|].
  assert (G : forall x, 0 <= x <= 1 -> 0 <= a + (b - a) * x <= 1) by (intros x Hx; nra).
  assert (D : forall x y, 0 <= x <= 1 -> 0 <= y <= 1 -> Rabs (a + (b - a) * x - (a + (b - a) * y)) <= b - a). { intros x y Hx Hy. replace (a + (b - a) * x - (a + (b - a) * y)) with ((b - a) * (x - y)) by ring. rewrite Rabs_mult, (Rabs_right (b - a)) by lra. rewrite <- (Rmult_1_r (b - a)) at 2. apply Rmult_le_compat_l; [lra|]. unfold Rabs. destruct (Rcase_abs _); lra. }
  destruct (E u) as [-> _]. destruct (E v) as [-> _]. destruct (E u') as [_ ->]. destruct (E v') as [_ ->].
  pose proof (L1 _ _ (G u U) (G v V)) as B1. pose proof (L2 _ _ (G u' U') (G v' V')) as B2. fold (curveX c (a + (b - a) * u)) (curveX c (a + (b - a) * v)) in B1. fold (curveY c (a + (b - a) * u')) (curveY c (a + (b - a) * v')) in B2.
  pose proof (Rle_abs (curveX c (a + (b - a) * u) - curveX c (a + (b - a) * v))). pose proof (Rle_abs (curveY c (a + (b - a) * u') - curveY c (a + (b - a) * v'))).
  pose proof (Rmult_le_compat_l K1 _ _ P1 (D u v U V)). pose proof (Rmult_le_compat_l K2 _ _ P2 (D u' v' U' V')). lra.
Qed.
Lemma pair_ends th c d K K' : (forall c' a b, section c c' a b -> 0 <= a <= b -> b <= 1 -> exists s, boxSize c' = Fin s /\ s <= K * (b - a)) ->
  (forall c' a b, section d c' a b -> 0 <= a <= b -> b <= 1 -> exists s, boxSize c' = Fin s /\ s <= K' * (b - a)) -> forall n fuel s1 s2 a1 b1 a2 b2, (n < fuel)%nat -> piece c s1 a1 b1 -> piece d s2 a2 b2 ->
  K * (b1 - a1) < th * 2 ^ n -> K' * (b2 - a2) < th * 2 ^ n -> exists l, pairIteration RBMath fuel (Fin th : T RNum) s1 s2 = Ok l.
Proof.
  intros HK HK'. induction n as [|n IH]; intros fuel s1 s2 a1 b1 a2 b2 Hf P1 P2 H1 H2; (destruct fuel as [|fuel]; [lia|]); rewrite pairIteration_eq; destruct (_ && _) eqn:EB; eauto.
  - exfalso. destruct P1 as (_ & _ & A1 & B1 & C1). destruct P2 as (_ & _ & A2 & B2 & C2). destruct (HK _ _ _ C1) as (s & Es & Ls); [lra|lra|]. destruct (HK' _ _ _ C2) as (s' & Es' & Ls'); [lra|lra|].
    rewrite Es, Es' in EB. rewrite !fltb in EB. assert (T1 : Rltb s th = true) by (apply Rltb_true; cbn [pow] in H1; lra). assert (T2 : Rltb s' th = true) by (apply Rltb_true; cbn [pow] in H2; lra). rewrite T1, T2 in EB. discriminate.
  - assert (G : forall ps, incl ps (four s1 s2) -> exists l, loopAll (pairIteration RBMath fuel (Fin th : T RNum)) ps = Ok l).
    { destruct (halves_piece _ _ _ _ P1) as [Q1 Q2]. destruct (halves_piece _ _ _ _ P2) as [Q3 Q4]. cbn [pow] in H1, H2. assert (Hf' : (n < fuel)%nat) by lia.
      assert (Z : forall p, In p (four s1 s2) -> exists l, pairIteration RBMath fuel (Fin th : T RNum) (fst p) (snd p) = Ok l). { intros p [<-|[<-|[<-|[<-|[]]]]]; cbn [fst snd]; (eapply IH; [exact Hf'|eassumption|eassumption|lra|lra]). }
      induction ps as [|p ps IHp]; intros HI; [eexists; reflexivity|]. cbn [loopAll]. destruct (Z p) as (a & ->); [apply HI; left; reflexivity|]. cbn [bind]. fold (loopAll (pairIteration RBMath fuel (Fin th : T RNum))). destruct IHp as (b & ->); [intros q Hq; apply HI; right; exact Hq|]. eexists. reflexivity. }
    destruct (G (filter (fun p => CurveOverlaps (cv (fst p)) (cv (snd p))) (four s1 s2))) as (l & ->); [intros p Hp; apply filter_In in Hp; apply Hp|]. eexists. reflexivity.
Qed.
Lemma inner_ends tr bm f : forall p k j, (102 - k - j < f)%nat -> innerLoop tr bm f p (Fin (INR k / 100) : T RNum) (Fin (INR k / 100 + INR j / 100) : T RNum) <> IFuel.
Proof.
  induction f as [|f IH]; intros p k j Hf; [lia|]. cbn [innerLoop]. rewrite rstep_fin. fin. destruct (Rleb_spec (INR k / 100 + INR j / 100) (1 + 1 / 100)) as [L|G]; [|discriminate]. destruct (simple _ _ _).
  - replace (INR k / 100 + INR j / 100 + 1 / 100) with (INR k / 100 + INR (S j) / 100) by (rewrite S_INR; lra). apply IH. assert (k + j <= 101)%nat by (apply INR_le; rewrite plus_INR, (INR_IZR_INZ 101); cbn; lra). lia.
  - destruct (@ltb RNum _ _); discriminate.
Qed.
Lemma outer_ends tr bm f : forall p k, (k <= 100)%nat -> (103 < f + k)%nat -> exists o, outerLoop (N := RNum) tr bm f p (Fin (INR k / 100) : T RNum) = Ok o.
Proof.
  induction f as [|f IH]; intros p k Hk Hf; [lia|]. cbn [outerLoop]. rewrite rstep_fin. fin. pose proof (inner_spec tr bm f p (INR k / 100) 1 ltac:(intros j Hj; lia) (le_n 1)) as HI. pose proof (inner_ends tr bm f p k 1 ltac:(lia)) as HF. replace (INR k / 100 + INR 1 / 100) with (INR k / 100 + 1 / 100) in HI, HF by (cbn; lra).
  destruct (innerLoop tr bm f p _ _) as [| |s t2|]; eauto; [|congruence]. destruct HI as (j & Hj & -> & HL & _). replace (INR k / 100 + INR j / 100) with (INR (k + j) / 100) in * by (rewrite plus_INR; lra). fin. destruct (Rleb _ _); eauto.
  assert (HK : (k + j <= 100)%nat) by (apply INR_le; rewrite (INR_IZR_INZ 100); cbn; lra). destruct (IH p (k + j)%nat HK ltac:(lia)) as (o & ->). cbn [bind]. destruct o as [[]|]; eauto.
Qed.
Lemma reduce_ends tr bm fuel c : (103 < fuel)%nat -> exists l, reduce (N := RNum) tr bm fuel c = Ok l.
Proof.
  intros Hf. unfold reduce. generalize (@nil (@cseg RNum)). induction (pass1 c) as [|p ps IH]; intros acc; cbn [reduceLoop]; [eauto|]. unfold pass2. assert (E0 : @zero RNum = Fin (INR 0 / 100)) by (cbn; f_equal; lra). rewrite E0. destruct (outer_ends tr bm fuel p 0 ltac:(lia) ltac:(lia)) as (o & ->). cbn [bind].
  destruct o as [[l t]|]; cbn [bind]; [|eauto]. destruct (ltb t one); cbn [bind]; apply IH.
Qed.
Lemma pairAll_eq fuel th ps : pairAll RBMath fuel th ps = loopAll (pairIteration RBMath fuel th) ps.
Proof. induction ps as [|p ps IH]; [reflexivity|]. cbn [pairAll loopAll]. fold (loopAll (pairIteration RBMath fuel th)). rewrite IH. reflexivity. Qed.
Lemma covers_pieces P c l s : covers P c 0 1 l -> In s l -> exists a b, piece c s a b.
Proof. intros H HI. destruct (covers_in _ _ _ _ _ _ H HI) as (x & y & H1 & _). eauto. Qed.

Section Claims.
Variable tr : Trig RNum.
Notation IntersectsCurve := (IntersectsCurve tr RBMath).
Notation reduce := (reduce tr RBMath).

(** The pieces that a curve is cut into are sections that follow one another from one end of it to the other, each of them simple; or it is given up. *)
Theorem C76_pieces fuel c l : finiteCrv c -> reduce fuel c = Ok l -> l = [] \/ covers (fun d => simple tr RBMath d = true) c 0 1 l.
Proof. intros F E. destruct l as [|s l]; [left; reflexivity|right]. apply (reduce_covers tr RBMath fuel); [exact F|exact E|discriminate]. Qed.

(** Parameters that are reported are, up to five decimals, those of points on both curves that are close together. *)
Theorem C76_reported fuel c d th l v : finiteCrv c -> smallCrv c -> finiteCrv d -> smallCrv d -> IntersectsCurve fuel c d (Fin th : T RNum) = Ok l -> In v l ->
  exists m n u w, v = (Fin (INR m / 100000) : T RNum, Fin (INR n / 100000) : T RNum) /\ 0 <= u <= 1 /\ 0 <= w <= 1 /\ rounded u m /\ rounded w n /\ apart c d u w < 2 * th.
Proof.
  intros F S F' S'. unfold Bezier.IntersectsCurve. destruct (reduce fuel c) as [l1| | |] eqn:E1; cbn [bind]; try discriminate. destruct (reduce fuel d) as [l2| | |] eqn:E2; cbn [bind]; try discriminate. unfold curveIntersects. rewrite pairAll_eq. intros E Hv.
  apply (loopAll_in _ _ _ E) in Hv. destruct Hv as ([s1 s2] & r & Hp & Er & Hv). apply filter_In in Hp. destruct Hp as [Hp HO]. cbn [fst snd] in *. apply in_prod_iff in Hp. destruct Hp as [HI1 HI2].
  destruct (C76_pieces _ _ _ F E1) as [->|C1]; [destruct HI1|]. destruct (C76_pieces _ _ _ F' E2) as [->|C2]; [destruct HI2|]. destruct (covers_pieces _ _ _ _ C1 HI1) as (a1 & b1 & P1). destruct (covers_pieces _ _ _ _ C2 HI2) as (a2 & b2 & P2).
  destruct (pair_sound th c d F S F' S' _ _ _ _ _ _ _ _ P1 P2 HO Er v Hv) as (x1 & y1 & x2 & y2 & m & n & c' & d' & -> & Hm & Hn & A1 & B1 & A2 & B2 & G1 & G2 & HO' & s & s' & Es & Es' & Ls & Ls').
  exists m, n, ((x1 + y1) / 2), ((x2 + y2) / 2). split; [reflexivity|]. split; [lra|]. split; [lra|]. split; [exact Hm|]. split; [exact Hn|]. destruct G1 as (FC & SC & EC). destruct G2 as (FD & SD & ED).
  pose proof (overlap_apart c' d' s s' (1 / 2) (1 / 2) FC (SC S) FD (SD S') HO' Es Es' ltac:(lra) ltac:(lra)) as HA. unfold apart in *. destruct (EC (1 / 2)) as [EC1 EC2]. destruct (ED (1 / 2)) as [ED1 ED2]. rewrite EC1, EC2, ED1, ED2 in HA.
  replace (x1 + (y1 - x1) * (1 / 2)) with ((x1 + y1) / 2) in HA by field. replace (x2 + (y2 - x2) * (1 / 2)) with ((x2 + y2) / 2) in HA by field. lra.
Qed.

(** the part of c between a1 and b1 is left of, right of, above or below the part of d between a2 and b2 *)
Definition beside (c d : crv RNum) (a1 b1 a2 b2 : R) : Prop :=
  (forall p q, a1 <= p <= b1 -> a2 <= q <= b2 -> curveX c p <= curveX d q) \/ (forall p q, a1 <= p <= b1 -> a2 <= q <= b2 -> curveX d q <= curveX c p) \/
  (forall p q, a1 <= p <= b1 -> a2 <= q <= b2 -> curveY c p <= curveY d q) \/ (forall p q, a1 <= p <= b1 -> a2 <= q <= b2 -> curveY d q <= curveY c p).
Lemma touching_beside I J c d u w : smallCrv c -> smallCrv d -> touching I J c d u w -> exists a1 b1 a2 b2, I a1 b1 /\ J a2 b2 /\ 0 <= a1 < b1 /\ b1 <= 1 /\ 0 <= a2 < b2 /\ b2 <= 1 /\ a1 <= u <= b1 /\ a2 <= w <= b2 /\ beside c d a1 b1 a2 b2.
Proof.
  intros S S' (c' & d' & a1 & b1 & a2 & b2 & HI & HJ & (F1 & S1 & E1) & (F2 & S2 & E2) & A1 & B1 & A2 & B2 & Hu & Hw & HO). exists a1, b1, a2, b2. do 8 (split; [assumption|]).
  assert (U : forall a b p, a < b -> a <= p <= b -> exists u, 0 <= u <= 1 /\ p = a + (b - a) * u). { intros a b p Hab Hp. exists ((p - a) / (b - a)). split; [|field; lra]. split; [apply Rmult_le_pos; [lra|left; apply Rinv_0_lt_compat; lra]|]. apply (Rmult_le_reg_r (b - a)); [lra|]. unfold Rdiv. rewrite Rmult_assoc, Rinv_l by lra. lra. }
  pose proof (BoundingBox_tight c' F1 (S1 S)) as T1. pose proof (BoundingBox_tight d' F2 (S2 S')) as T2. unfold CurveOverlaps in HO. destruct (BoundingBox c') as [tl br], (BoundingBox d') as [tl' br']. cbn [fst snd] in T1, T2. destruct T1 as (G1 & G2 & (BX & _) & (BY & _)). destruct T2 as (G3 & G4 & (BX' & _) & (BY' & _)).
  assert (HN : ~ ((X tl < X br' /\ X tl' < X br) /\ (Y tl < Y br' /\ Y tl' < Y br))) by (intros C; apply Prop_C36.C36_exact_degenerate in C; try assumption; congruence).
  assert (PX : forall p, a1 <= p <= b1 -> X tl <= curveX c p <= X br /\ Y tl <= curveY c p <= Y br). { intros p Hp. destruct (U a1 b1 p) as (x & Hx & ->); [lra|lra|]. destruct (E1 x) as [<- <-]. split; [apply BX, on_projX, Hx|apply BY, on_projY, Hx]. }
  assert (QX : forall p, a2 <= p <= b2 -> X tl' <= curveX d p <= X br' /\ Y tl' <= curveY d p <= Y br'). { intros p Hp. destruct (U a2 b2 p) as (x & Hx & ->); [lra|lra|]. destruct (E2 x) as [<- <-]. split; [apply BX', on_projX, Hx|apply BY', on_projY, Hx]. }
  destruct (Rlt_le_dec (X tl) (X br')) as [L1|L1]; [|right; left; intros p q Hp Hq; pose proof (PX p Hp); pose proof (QX q Hq); lra].
  destruct (Rlt_le_dec (X tl') (X br)) as [L2|L2]; [|left; intros p q Hp Hq; pose proof (PX p Hp); pose proof (QX q Hq); lra].
  destruct (Rlt_le_dec (Y tl) (Y br')) as [L3|L3]; [|right; right; right; intros p q Hp Hq; pose proof (PX p Hp); pose proof (QX q Hq); lra].
  destruct (Rlt_le_dec (Y tl') (Y br)) as [L4|L4]; [|right; right; left; intros p q Hp Hq; pose proof (PX p Hp); pose proof (QX q Hq); lra]. exfalso. apply HN. auto.
Qed.
(** parameters are reported, up to five decimals, of a point of c nearer to that at u than th, and of a point of d nearer to that at w than th *)
Definition found (c d : crv RNum) (th : R) (l : list (T RNum * T RNum)) (u w : R) : Prop :=
  exists m n u' w', In (Fin (INR m / 100000) : T RNum, Fin (INR n / 100000) : T RNum) l /\ 0 <= u' <= 1 /\ 0 <= w' <= 1 /\ rounded u' m /\ rounded w' n /\ apart c c u u' < th /\ apart d d w w' < th.
Lemma found_or I J fuel c d th l1 l2 l u w : finiteCrv c -> smallCrv c -> finiteCrv d -> smallCrv d -> reduce fuel c = Ok l1 -> reduce fuel d = Ok l2 -> l1 <> [] -> l2 <> [] -> halving I -> halving J ->
  (forall s a b, In s l1 -> piece c s a b -> I a b) -> (forall s a b, In s l2 -> piece d s a b -> J a b) -> IntersectsCurve fuel c d (Fin th : T RNum) = Ok l -> 0 <= u <= 1 -> 0 <= w <= 1 ->
  found c d th l u w \/ exists a1 b1 a2 b2, I a1 b1 /\ J a2 b2 /\ 0 <= a1 < b1 /\ b1 <= 1 /\ 0 <= a2 < b2 /\ b2 <= 1 /\ a1 <= u <= b1 /\ a2 <= w <= b2 /\ beside c d a1 b1 a2 b2.
Proof.
  intros F S F' S' E1 E2 N1 N2 HalfI HalfJ HI HJ. unfold Bezier.IntersectsCurve. rewrite E1, E2. cbn [bind]. unfold curveIntersects. rewrite pairAll_eq. intros E Hu Hw.
  destruct (C76_pieces _ _ _ F E1) as [->|C1]; [congruence|]. destruct (C76_pieces _ _ _ F' E2) as [->|C2]; [congruence|].
  destruct (covers_at _ _ _ _ _ u C1 Hu N1) as (s1 & a1 & b1 & I1 & P1 & U1). destruct (covers_at _ _ _ _ _ w C2 Hw N2) as (s2 & a2 & b2 & I2 & P2 & U2).
  assert (HT : (exists v x1 y1 x2 y2, In v l /\ reported th c d x1 y1 x2 y2 v /\ x1 <= u <= y1 /\ x2 <= w <= y2) \/ touching I J c d u w).
  { destruct (CurveOverlaps (cv s1) (cv s2)) eqn:EO.
    - destruct (proj2 (loopAll_in _ _ _ E) (s1, s2)) as (r & Er & Hr); [apply filter_In; split; [apply in_prod_iff; auto|exact EO]|]. cbn [fst snd] in Er. destruct (pair_complete I J th c d u w HalfI HalfJ F S F' S' _ _ _ _ _ _ _ _ P1 P2 (HI _ _ _ I1 P1) (HJ _ _ _ I2 P2) EO U1 U2 Er) as [(v & x1 & y1 & x2 & y2 & Hv & K)|K]; [left|right; exact K]. exists v, x1, y1, x2, y2. split; [apply Hr, Hv|exact K].
    - right. pose proof (HI _ _ _ I1 P1). pose proof (HJ _ _ _ I2 P2). destruct P1 as (_ & _ & A1 & B1 & G1). destruct P2 as (_ & _ & A2 & B2 & G2). exists (cv s1), (cv s2), a1, b1, a2, b2. do 10 (split; [assumption|]). exact EO. }
  destruct HT as [(v & x1 & y1 & x2 & y2 & Hv & (m & n & c' & d' & -> & Hm & Hn & A1 & B1 & A2 & B2 & G1 & G2 & HO & s & s' & Es & Es' & Ls & Ls') & K1 & K2)|HT]; [left|right; revert HT; apply touching_beside; assumption].
  assert (Near : forall c0 c0' a b s0 t, section c0 c0' a b -> smallCrv c0 -> a < b -> a <= t <= b -> boxSize c0' = Fin s0 -> apart c0 c0 t ((a + b) / 2) <= s0).
  { intros c0 c0' a b s0 t (FF & SS & EE) S0 Hab Ht Eb. destruct (box_size c0' FF (SS S0)) as (s1' & Eb' & HB & _). rewrite Eb in Eb'. injection Eb' as <-. set (x := (t - a) / (b - a)). assert (Hx : 0 <= x <= 1). { unfold x. split; [apply Rmult_le_pos; [lra|left; apply Rinv_0_lt_compat; lra]|]. apply (Rmult_le_reg_r (b - a)); [lra|]. unfold Rdiv. rewrite Rmult_assoc, Rinv_l by lra. lra. }
    specialize (HB x (1 / 2) Hx ltac:(lra)). unfold apart in *. destruct (EE x) as [X1 X2]. destruct (EE (1 / 2)) as [X3 X4]. rewrite X1, X2, X3, X4 in HB. replace (a + (b - a) * x) with t in HB by (unfold x; field; lra). replace (a + (b - a) * (1 / 2)) with ((a + b) / 2) in HB by field. exact HB. }
  exists m, n, ((x1 + y1) / 2), ((x2 + y2) / 2). split; [exact Hv|]. split; [lra|]. split; [lra|]. split; [exact Hm|]. split; [exact Hn|]. split; [eapply Rle_lt_trans; [apply (Near c c' x1 y1 s); [exact G1|exact S|lra|lra|exact Es]|exact Ls]|eapply Rle_lt_trans; [apply (Near d d' x2 y2 s'); [exact G2|exact S'|lra|lra|exact Es']|exact Ls']].
Qed.
(** If neither curve is given up, take a point of each, in particular one where they meet: it is reported, up to the threshold, unless a part of one curve around it is beside a part of the other around it.
    The full claim would be that every point where the curves meet is reported; missing are the points that [beside] leaves, and curves that are given up, and both are really lost: see the refutations below. *)
Theorem C76_found_partial fuel c d th l u w : finiteCrv c -> smallCrv c -> finiteCrv d -> smallCrv d -> reduce fuel c <> Ok [] -> reduce fuel d <> Ok [] -> IntersectsCurve fuel c d (Fin th : T RNum) = Ok l -> 0 <= u <= 1 -> 0 <= w <= 1 ->
  found c d th l u w \/ exists a1 b1 a2 b2, 0 <= a1 < b1 /\ b1 <= 1 /\ 0 <= a2 < b2 /\ b2 <= 1 /\ a1 <= u <= b1 /\ a2 <= w <= b2 /\ beside c d a1 b1 a2 b2.
Proof.
  intros F S F' S' N1 N2 E Hu Hw. pose proof E as E'. unfold Bezier.IntersectsCurve in E'. destruct (reduce fuel c) as [l1| | |] eqn:E1; cbn [bind] in E'; try discriminate. destruct (reduce fuel d) as [l2| | |] eqn:E2; cbn [bind] in E'; try discriminate. clear E'.
  assert (HH : halving (fun _ _ => True)) by (intros a b _; auto).
  destruct (found_or (fun _ _ => True) (fun _ _ => True) fuel c d th l1 l2 l u w) as [H|(a1 & b1 & a2 & b2 & _ & _ & H)]; eauto; try congruence. right. exists a1, b1, a2, b2. exact H.
Qed.

(** the search cuts the curve at the ends of its pieces, and the pieces into halves, quarters and so on *)
Definition isCut (l : list (@cseg RNum)) (t : R) : Prop := exists s a b n k, In s l /\ st1 s = Fin a /\ st2 s = Fin b /\ t = a + (b - a) * (INR k / 2 ^ n).
(** a value that the function has at t is passed there: there are smaller and larger ones on each interval around it *)
Definition passes (f : R -> R) (t : R) : Prop := forall a b, a < t < b -> (exists p, a <= p <= b /\ f p < f t) /\ (exists p, a <= p <= b /\ f t < f p).
(** A point where the curves meet, that is not one where the search cuts one of them, is reported if one of the curves runs through it neither upright nor level nor turning back. *)
Theorem C76_crossing fuel c d th l1 l2 l u w : finiteCrv c -> smallCrv c -> finiteCrv d -> smallCrv d -> reduce fuel c = Ok l1 -> reduce fuel d = Ok l2 -> l1 <> [] -> l2 <> [] -> IntersectsCurve fuel c d (Fin th : T RNum) = Ok l ->
  0 <= u <= 1 -> 0 <= w <= 1 -> meet c d u w -> ~ isCut l1 u -> ~ isCut l2 w -> (passes (curveX c) u /\ passes (curveY c) u) \/ (passes (curveX d) w /\ passes (curveY d) w) -> found c d th l u w.
Proof.
  intros F S F' S' E1 E2 N1 N2 E Hu Hw [MX MY] C1 C2 HP. set (I := fun (t a b : R) => forall n k, t <> a + (b - a) * (INR k / 2 ^ n)).
  assert (HH : forall t, halving (I t)). { intros t a b H. assert (Z : forall n, 2 ^ n <> 0) by (intros n; apply pow_nonzero; lra). split; intros n k Ht.
    - apply (H (Datatypes.S n) k). rewrite Ht. cbn [pow]. field. apply Z.
    - apply (H (Datatypes.S n) (2 ^ n + k)%nat). rewrite Ht, plus_INR, pow_INR. replace (INR 2) with 2 by (cbn; ring). cbn [pow]. field. apply Z. }
  assert (HC : forall l0 c0 t, ~ isCut l0 t -> forall s a b, In s l0 -> piece c0 s a b -> I t a b). { intros l0 c0 t HN s a b Hs (G1 & G2 & _) n k Ht. apply HN. exists s, a, b, n, k. auto. }
  destruct (found_or (I u) (I w) fuel c d th l1 l2 l u w) as [H|(a1 & b1 & a2 & b2 & I1 & I2 & A1 & B1 & A2 & B2 & Ku & Kw & HB)]; eauto. exfalso.
  assert (HI : forall t a b, I t a b -> a <= t <= b -> a < t < b). { intros t a b H [L1 L2]. pose proof (H 0%nat 0%nat) as H0. pose proof (H 0%nat 1%nat) as H1. cbn in H0, H1. split; [destruct L1 as [L1|L1]; [exact L1|exfalso; apply H0; lra]|destruct L2 as [L2|L2]; [exact L2|exfalso; apply H1; lra]]. }
  pose proof (HI _ _ _ I1 Ku) as Su. pose proof (HI _ _ _ I2 Kw) as Sw. destruct HP as [[PX PY]|[PX PY]].
  - destruct (PX a1 b1 Su) as [(p1 & P1 & Q1) (p2 & P2 & Q2)]. destruct (PY a1 b1 Su) as [(p3 & P3 & Q3) (p4 & P4 & Q4)]. destruct HB as [HB|[HB|[HB|HB]]]; [specialize (HB p2 w P2 Kw)|specialize (HB p1 w P1 Kw)|specialize (HB p4 w P4 Kw)|specialize (HB p3 w P3 Kw)]; lra.
  - destruct (PX a2 b2 Sw) as [(p1 & P1 & Q1) (p2 & P2 & Q2)]. destruct (PY a2 b2 Sw) as [(p3 & P3 & Q3) (p4 & P4 & Q4)]. destruct HB as [HB|[HB|[HB|HB]]]; [specialize (HB u p1 Ku P1)|specialize (HB u p2 Ku P2)|specialize (HB u p3 Ku P3)|specialize (HB u p4 Ku P4)]; lra.
Qed.

(** With a positive threshold the search comes to an end. *)
Theorem C76_ends c d th : finiteCrv c -> smallCrv c -> finiteCrv d -> smallCrv d -> 0 < th -> exists fuel0, forall fuel, (fuel0 <= fuel)%nat -> exists l, IntersectsCurve fuel c d (Fin th : T RNum) = Ok l.
Proof.
  intros F S F' S' Hth. destruct (section_size c S) as (K & PK & HK). destruct (section_size d S') as (K' & PK' & HK').
  assert (exists n, K + K' < th * 2 ^ n) as (n & Hn). { assert (1 < 2) as H12 by lra. destruct (Pow_x_infinity 2 ltac:(rewrite Rabs_right; lra) ((K + K' + 1) / th)) as (n & Hn). exists n. specialize (Hn n (le_n n)). rewrite Rabs_right in Hn by (apply Rle_ge, pow_le; lra). apply Rge_le in Hn. apply (Rmult_le_compat_l th) in Hn; [|lra]. replace (th * ((K + K' + 1) / th)) with (K + K' + 1) in Hn by (field; lra). lra. }
  exists (n + 105)%nat. intros fuel Hf. unfold Bezier.IntersectsCurve. destruct (reduce_ends tr RBMath fuel c ltac:(lia)) as (l1 & E1). destruct (reduce_ends tr RBMath fuel d ltac:(lia)) as (l2 & E2). rewrite E1, E2. cbn [bind]. unfold curveIntersects. rewrite pairAll_eq.
  assert (G : forall ps, incl ps (list_prod l1 l2) -> exists l, loopAll (pairIteration RBMath fuel (Fin th : T RNum)) ps = Ok l).
  { induction ps as [|[s1 s2] ps IH]; intros HI; [eexists; reflexivity|]. cbn [loopAll fst snd]. fold (loopAll (pairIteration RBMath fuel (Fin th : T RNum))). destruct (in_prod_iff l1 l2 s1 s2) as [HP _]. destruct HP as [I1 I2]; [apply HI; left; reflexivity|].
    destruct (C76_pieces _ _ _ F E1) as [->|C1]; [destruct I1|]. destruct (C76_pieces _ _ _ F' E2) as [->|C2]; [destruct I2|]. destruct (covers_pieces _ _ _ _ C1 I1) as (a1 & b1 & P1). destruct (covers_pieces _ _ _ _ C2 I2) as (a2 & b2 & P2).
    destruct (pair_ends th c d K K' HK HK' n fuel s1 s2 a1 b1 a2 b2 ltac:(lia) P1 P2) as (a & ->).
    { destruct P1 as (_ & _ & A & B & _). nra. } { destruct P2 as (_ & _ & A & B & _). nra. }
    cbn [bind]. destruct IH as (b & ->); [intros q Hq; apply HI; right; exact Hq|]. eexists. reflexivity. }
  apply G. intros p Hp. apply filter_In in Hp. apply Hp.
Qed.
End Claims.

(** *** straight curves *)
(** a straight curve from (x, y) whose control points are at its thirds *)
Definition line3 (x y v w : R) : crv RNum := mkCrv (pnt x y) (pnt (x + v) (y + w)) (pnt (x + 3 * v) (y + 3 * w)) (pnt (x + 2 * v) (y + 2 * w)).
Lemma line3_X x y v w t : curveX (line3 x y v w) t = x + 3 * v * t. Proof. unfold curveX, cubic. cbn [line3 c_s c_cs c_e c_ce]. rewrite !pnt_X. ring. Qed.
Lemma line3_Y x y v w t : curveY (line3 x y v w) t = y + 3 * w * t. Proof. unfold curveY, cubic. cbn [line3 c_s c_cs c_e c_ce]. rewrite !pnt_Y. ring. Qed.
Lemma line3_eq x y v w x' y' v' w' : x = x' -> y = y' -> v = v' -> w = w' -> line3 x y v w = line3 x' y' v' w'. Proof. intros; subst; reflexivity. Qed.
Lemma line3_split x y v w t : fst (hullSplit (line3 x y v w) (Fin t : T RNum)) = line3 x y (t * v) (t * w).
Proof. unfold hullSplit, line3, lerp, pnt, NewPoint. cbn [c_s c_cs c_e c_ce px py fst snd]. fin. f_equal; f_equal; f_equal; ring. Qed.
Lemma line3_derivative x y v w t : Derivative (line3 x y v w) (Fin t : T RNum) = pnt (3 * v) (3 * w).
Proof. unfold Derivative, derive1, dpt, line3, pnt, three, two. cbn [c_s c_cs c_e c_ce px py]. fin. f_equal; f_equal; ring. Qed.
Lemma line3_normal x y v w t : v <> 0 \/ w <> 0 -> let q := sqrt (3 * v * (3 * v) + 3 * w * (3 * w)) in 0 < q /\ normal (line3 x y v w) (Fin t : T RNum) = pnt (- (3 * w) / q) (3 * v / q).
Proof.
  intros HN q. assert (HP : 0 < v * v + w * w) by (destruct HN; nra). assert (Hq : 0 < q) by (apply sqrt_lt_R0; nra). split; [exact Hq|]. unfold normal. rewrite line3_derivative. cbn [pnt px py]. fin. rewrite fsqrt by nra. fold q. rewrite !fdiv by lra. reflexivity.
Qed.
Lemma line3_angle x y v w k : 0 < k -> v <> 0 \/ w <> 0 -> angle RTrig (pnt x y) (pnt (x + 3 * v) (y + 3 * w)) (pnt (x + k * v) (y + k * w)) = Fin 0.
Proof.
  intros Hk HN. assert (HP : 0 < v * v + w * w) by (destruct HN; nra). unfold angle, pnt. cbn [px py]. fin. cbn [natan2 RTrig]. unfold er_atan2. f_equal.
  replace ((x + 3 * v - x) * (y + k * w - y) - (y + 3 * w - y) * (x + k * v - x)) with 0 by ring. replace ((x + 3 * v - x) * (x + k * v - x) + (y + 3 * w - y) * (y + k * w - y)) with (3 * k * (v * v + w * w)) by ring.
  unfold Ratan2. destruct (Rlt_dec 0 (3 * k * (v * v + w * w))) as [_|C]; [|exfalso; apply C; nra]. unfold Rdiv. rewrite Rmult_0_l. apply atan_0.
Qed.
Lemma line3_simple x y v w : v <> 0 \/ w <> 0 -> simple RTrig RBMath (line3 x y v w) = true.
Proof.
  intros HN. unfold simple. cbn [line3 c_s c_cs c_e c_ce]. replace (pnt (x + v) (y + w)) with (pnt (x + 1 * v) (y + 1 * w)) by (f_equal; ring). rewrite !line3_angle by (assumption || lra). replace (pnt (x + 1 * v) (y + 1 * w)) with (pnt (x + v) (y + w)) by (f_equal; ring).
  unfold gtb. fin. replace (Rltb 0 0) with false by (symmetry; apply Rltb_false; lra). cbn [andb orb]. fold (line3 x y v w). destruct (line3_normal x y v w 0 HN) as [Hq ->]. destruct (line3_normal x y v w 1 HN) as [_ ->]. set (q := sqrt _) in *. cbn [pnt px py]. fin.
  assert (HQ : q * q = 3 * v * (3 * v) + 3 * w * (3 * w)) by (apply sqrt_sqrt; nra). assert (E1 : - (3 * w) / q * (- (3 * w) / q) + 3 * v / q * (3 * v / q) = 1). { transitivity ((3 * v * (3 * v) + 3 * w * (3 * w)) / (q * q)); [field; lra|]. rewrite <- HQ. field. lra. }
  rewrite E1. cbn [nacos RBMath]. unfold er_acos. replace (Rleb (-1) 1 && Rleb 1 1) with true by (symmetry; apply andb_true_intro; split; apply Rleb_true; lra). rewrite acos_1. unfold three. cbn [npi RTrig]. fin. rewrite fdiv by lra. cbn [nabs RNum er_abs]. unfold er_abs. rewrite Rabs_R0. fin. apply Rltb_true. pose proof PI_RGT_0. lra.
Qed.
Lemma line3_params x y v w : reduceParams (line3 x y v w) = [Fin 0 : T RNum; Fin 1 : T RNum].
Proof.
  assert (G : forall p q : R, extrema1 (N := RNum) (Fin p, Fin p, Fin p) (Fin q, Fin q) = []).
  { intros p q. unfold extrema1, droots3, droots2, two. fin. replace (p - 2 * p + p) with 0 by ring. replace (Reqb 0 0) with true by (symmetry; apply Reqb_true; reflexivity). replace (Reqb p p) with true by (symmetry; apply Reqb_true; reflexivity). replace (Reqb q q) with true by (symmetry; apply Reqb_true; reflexivity). reflexivity. }
  assert (EX : extremaX (line3 x y v w) = []). { transitivity (extrema1 (N := RNum) (Fin (3 * v), Fin (3 * v), Fin (3 * v)) (Fin 0, Fin 0)); [|apply G]. unfold extremaX, derive2, derive1, dpt, line3, pnt, three, two. cbn [c_s c_cs c_e c_ce px py]. fin. repeat (f_equal; try ring). }
  assert (EY : extremaY (line3 x y v w) = []). { transitivity (extrema1 (N := RNum) (Fin (3 * w), Fin (3 * w), Fin (3 * w)) (Fin 0, Fin 0)); [|apply G]. unfold extremaY, derive2, derive1, dpt, line3, pnt, three, two. cbn [c_s c_cs c_e c_ce px py]. fin. repeat (f_equal; try ring). }
  unfold reduceParams. rewrite EX, EY. cbn [app]. unfold Float64ArrayDeDup. cbn [Float64ArrayDeDup_loop existsb]. fin. cbn [Float64ArrayDeDup_loop existsb]. fin. 
  replace (Reqb 1 0) with false by (symmetry; apply Reqb_false; lra). replace (Reqb 0 1) with false by (symmetry; apply Reqb_false; lra). cbn [orb sortF insertF fold_right]. fin. replace (Rltb 1 0) with false by (symmetry; apply Rltb_false; lra). reflexivity.
Qed.
Lemma line3_inner x y v w a b : v <> 0 \/ w <> 0 -> forall f j, (102 - j < f)%nat -> (1 <= j)%nat -> innerLoop RTrig RBMath f (mkCseg (line3 x y v w) a b) (Fin 0 : T RNum) (Fin (INR j / 100) : T RNum) = IDone.
Proof.
  intros HN. induction f as [|f IH]; intros j Hf Hj; [lia|]. cbn [innerLoop]. rewrite rstep_fin. fin. destruct (Rleb_spec (INR j / 100) (1 + 1 / 100)) as [L|G]; [|reflexivity].
  assert (HJ : 0 < INR j) by (apply lt_0_INR; lia). unfold splitSectionS, splitAtS, hullSplitS. fin. replace (Reqb 0 0) with true by (symmetry; apply Reqb_true; reflexivity). replace (Reqb (INR j / 100) 0) with false by (symmetry; apply Reqb_false; lra). cbn [cv].
  rewrite (surjective_pairing (hullSplit _ _)), line3_split. cbn [fst cv]. rewrite line3_simple by (destruct HN; [left|right]; apply Rmult_integral_contrapositive_currified; lra). replace (INR j / 100 + 1 / 100) with (INR (S j) / 100) by (rewrite S_INR; lra).
  assert (j <= 101)%nat by (apply INR_le; rewrite (INR_IZR_INZ 101); cbn; lra). apply IH; lia.
Qed.
Lemma line3_reduce x y v w fuel : v <> 0 \/ w <> 0 -> (103 < fuel)%nat -> reduce RTrig RBMath fuel (line3 x y v w) = Ok [mkCseg (line3 x y v w) (Fin 0 : T RNum) (Fin 1 : T RNum)].
Proof.
  intros HN Hf. unfold reduce, pass1. rewrite line3_params. cbn [splitBetween]. assert (HS : forall a b, cv (fst (splitSectionS (mkCseg (line3 x y v w) a b) (Fin 0 : T RNum) (Fin 1 : T RNum))) = line3 x y v w).
  { intros a b. unfold splitSectionS, splitAtS, hullSplitS. fin. replace (Reqb 0 0) with true by (symmetry; apply Reqb_true; reflexivity). replace (Reqb 1 0) with false by (symmetry; apply Reqb_false; lra). cbn [cv]. rewrite (surjective_pairing (hullSplit _ _)), line3_split. cbn [fst cv]. apply line3_eq; ring. }
  rewrite HS. cbn [reduceLoop]. unfold pass2. destruct fuel as [|f]; [lia|]. cbn [outerLoop]. rewrite rstep_fin. fin. replace (0 + 1 / 100) with (INR 1 / 100) by (cbn; lra). rewrite line3_inner by (assumption || lia). cbn [bind]. fin. replace (Rltb 0 1) with true by (symmetry; apply Rltb_true; lra).
  rewrite HS. cbn [st1 st2 bind app]. rewrite mapRange01. do 4 f_equal. ring.
Qed.
Lemma line3_finite x y v w : finiteCrv (line3 x y v w). Proof. repeat split. Qed.
Lemma line3_piece x y v w : piece (line3 x y v w) (mkCseg (line3 x y v w) (Fin 0 : T RNum) (Fin 1 : T RNum)) 0 1.
Proof. refine (conj eq_refl (conj eq_refl (conj _ (conj _ _)))); [lra|lra|]. apply section_refl, line3_finite. Qed.
Lemma line3_size x y v w : smallCrv (line3 x y v w) -> exists s, boxSize (line3 x y v w) = Fin s /\ s = Rabs (3 * v) + Rabs (3 * w).
Proof.
  intros S. destruct (box_size _ (line3_finite x y v w) S) as (s & Es & H1 & a & b & a' & b' & (A & B & A' & B') & E). exists s. split; [exact Es|]. apply Rle_antisym.
  - rewrite E, !line3_X, !line3_Y. replace (x + 3 * v * a - (x + 3 * v * b) + (y + 3 * w * a' - (y + 3 * w * b'))) with (3 * v * (a - b) + 3 * w * (a' - b')) by ring.
    assert (G : forall p q, -1 <= q <= 1 -> p * q <= Rabs p). { intros p q Hq. eapply Rle_trans; [apply Rle_abs|]. rewrite Rabs_mult. rewrite <- (Rmult_1_r (Rabs p)) at 2. apply Rmult_le_compat_l; [apply Rabs_pos|]. apply Rabs_le. lra. }
    apply Rplus_le_compat; apply G; lra.
  - specialize (H1 1 0 ltac:(lra) ltac:(lra)). unfold apart in H1. rewrite !line3_X, !line3_Y in H1. replace (x + 3 * v * 1 - (x + 3 * v * 0)) with (3 * v) in H1 by ring. replace (y + 3 * w * 1 - (y + 3 * w * 0)) with (3 * w) in H1 by ring. exact H1.
Qed.


(** Curves that do not meet are said to meet: two parallel lines, 1/20 apart, with the threshold that the code uses. *)
Definition para1 := line3 0 0 (1 / 15) (1 / 15).
Definition para2 := line3 (1 / 20) 0 (1 / 15) (1 / 15).
Lemma small_line x y v w : Rabs x < 100 -> Rabs y < 100 -> Rabs v < 100 -> Rabs w < 100 -> smallCrv (line3 x y v w).
Proof.
  intros H1 H2 H3 H4. assert (B : 1000 < 2 ^ 63) by lra. apply Rabs_def2 in H1, H2, H3, H4. unfold smallCrv, small, line3. cbn [c_s c_cs c_e c_ce]. rewrite !pnt_X, !pnt_Y. repeat (split); apply Rabs_def1; lra.
Qed.
Lemma rounded_half m : rounded ((0 + 1) / 2) m -> (Fin (INR m / 100000) : T RNum) = Fin (1 / 2).
Proof.
  intros H. unfold rounded in H. assert (INR m = 50000) as ->; [|f_equal; lra]. rewrite INR_IZR_INZ in *. assert (Z.of_nat m = 50000)%Z as ->; [|reflexivity]. assert (Rabs (IZR (Z.of_nat m) - 50000) <= 1 / 2). { replace (IZR (Z.of_nat m) - 50000) with (100000 * (IZR (Z.of_nat m) / 100000 - (0 + 1) / 2)) by field. rewrite Rabs_mult, (Rabs_right 100000) by lra. lra. }
  assert (H1 : -1 < IZR (Z.of_nat m) - 50000 < 1) by (revert H0; unfold Rabs; destruct (Rcase_abs _); lra). assert (49999 < Z.of_nat m)%Z by (apply lt_IZR; lra). assert (Z.of_nat m < 50001)%Z by (apply lt_IZR; lra). lia.
Qed.
Theorem C76_reported_refuted fuel : (103 < fuel)%nat -> IntersectsCurve RTrig RBMath fuel para1 para2 (Fin (1 / 2) : T RNum) = Ok [(Fin (1 / 2) : T RNum, Fin (1 / 2) : T RNum)] /\ forall u w, ~ meet para1 para2 u w.
Proof.
  intros Hf. split.
  - unfold IntersectsCurve, para1, para2. rewrite !line3_reduce by (assumption || (left; lra)). cbn [bind]. unfold curveIntersects. cbn [list_prod map app filter fst snd cv].
    assert (S1 : smallCrv (line3 0 0 (1 / 15) (1 / 15))) by (apply small_line; apply Rabs_def1; lra). assert (S2 : smallCrv (line3 (1 / 20) 0 (1 / 15) (1 / 15))) by (apply small_line; apply Rabs_def1; lra).
    assert (HO : CurveOverlaps (line3 0 0 (1 / 15) (1 / 15)) (line3 (1 / 20) 0 (1 / 15) (1 / 15)) = true).
    { apply overlap_points; try (apply line3_finite); try assumption. repeat split; [exists 0, 0|exists 1, 0|exists 0, 1|exists 1, 0]; (split; [lra|]); (split; [lra|]); rewrite ?line3_X, ?line3_Y; lra. }
    rewrite HO. rewrite pairAll_eq. cbn [loopAll fst snd]. destruct fuel as [|f]; [lia|]. rewrite pairIteration_eq. cbn [cv st1 st2]. destruct (line3_size _ _ _ _ S1) as (s & -> & ->). destruct (line3_size _ _ _ _ S2) as (s' & -> & ->). rewrite !fltb. rewrite !(Rabs_right (3 * (1 / 15))) by lra.
    replace (Rltb _ (1 / 2)) with true by (symmetry; apply Rltb_true; lra). cbn [andb bind app]. destruct (mid_spec 0 1) as (m & -> & Hm); [lra|]. rewrite (rounded_half m Hm). reflexivity.
  - intros u w [EX EY]. unfold para1, para2 in EX, EY. rewrite !line3_X in EX. rewrite !line3_Y in EY. lra.
Qed.

(** A crossing that is lost: two straight lines, one rising and one falling, that cross in the middle of both. Whatever they are, and with every threshold that is not larger than the first, they are not found. *)
Theorem C76_crossing_refuted fuel x y v w v' w' th : 0 < v -> 0 < w -> 0 < v' -> 0 < w' -> let c := line3 (x - 3 * v) (y - 3 * w) (2 * v) (2 * w) in let d := line3 (x - 3 * v') (y + 3 * w') (2 * v') (- (2 * w')) in
  smallCrv c -> smallCrv d -> th <= 6 * v + 6 * w -> (103 < fuel)%nat -> meet c d (1 / 2) (1 / 2) /\ IntersectsCurve RTrig RBMath fuel c d (Fin th : T RNum) = Ok [].
Proof.
  intros Hv Hw Hv' Hw' c d S S' Hth Hf. split; [split; unfold c, d; rewrite ?line3_X, ?line3_Y; lra|]. unfold IntersectsCurve, c, d. rewrite !line3_reduce by (assumption || (left; lra)). cbn [bind]. unfold curveIntersects. cbn [list_prod map app filter fst snd cv]. fold c d.
  destruct (CurveOverlaps c d); [|reflexivity]. rewrite pairAll_eq. cbn [loopAll fst snd]. destruct fuel as [|f]; [lia|]. rewrite pairIteration_eq. cbn [cv st1 st2]. destruct (line3_size _ _ _ _ S) as (s & Es & Hs). fold c in Es. rewrite Es, Hs, !fltb.
  rewrite (Rabs_right (3 * (2 * v))), (Rabs_right (3 * (2 * w))) by lra. replace (Rltb _ th) with false by (symmetry; apply Rltb_false; lra). cbn [andb].
  set (s1 := mkCseg c (Fin 0 : T RNum) (Fin 1 : T RNum)). set (s2 := mkCseg d (Fin 0 : T RNum) (Fin 1 : T RNum)). destruct (halves_piece c s1 0 1 (line3_piece _ _ _ _)) as [(_ & _ & _ & _ & F1 & T1 & E1) (_ & _ & _ & _ & F2 & T2 & E2)]. destruct (halves_piece d s2 0 1 (line3_piece _ _ _ _)) as [(_ & _ & _ & _ & F3 & T3 & E3) (_ & _ & _ & _ & F4 & T4 & E4)].
  assert (HX : forall t, curveX c t = x - 3 * v + 6 * v * t) by (intros t; unfold c; rewrite line3_X; ring). assert (HY : forall t, curveY c t = y - 3 * w + 6 * w * t) by (intros t; unfold c; rewrite line3_Y; ring).
  assert (KX : forall t, curveX d t = x - 3 * v' + 6 * v' * t) by (intros t; unfold d; rewrite line3_X; ring). assert (KY : forall t, curveY d t = y + 3 * w' - 6 * w' * t) by (intros t; unfold d; rewrite line3_Y; ring).
  assert (N1 : CurveOverlaps (cv (fst (halves s1))) (cv (fst (halves s2))) = false). { apply not_true_is_false. intros C. apply overlap_points in C; auto. destruct C as (_ & _ & _ & (a & b & Ha & Hb & C)). destruct (E1 a) as [_ G1]. destruct (E3 b) as [_ G2]. rewrite G1, G2, HY, KY in C. nra. }
  assert (N2 : CurveOverlaps (cv (fst (halves s1))) (cv (snd (halves s2))) = false). { apply not_true_is_false. intros C. apply overlap_points in C; auto. destruct C as (_ & (a & b & Ha & Hb & C) & _). destruct (E1 a) as [G1 _]. destruct (E4 b) as [G2 _]. rewrite G1, G2, HX, KX in C. nra. }
  assert (N3 : CurveOverlaps (cv (snd (halves s1))) (cv (snd (halves s2))) = false). { apply not_true_is_false. intros C. apply overlap_points in C; auto. destruct C as (_ & _ & (a & b & Ha & Hb & C) & _). destruct (E2 a) as [_ G1]. destruct (E4 b) as [_ G2]. rewrite G1, G2, HY, KY in C. nra. }
  assert (N4 : CurveOverlaps (cv (snd (halves s1))) (cv (fst (halves s2))) = false). { apply not_true_is_false. intros C. apply overlap_points in C; auto. destruct C as ((a & b & Ha & Hb & C) & _). destruct (E2 a) as [G1 _]. destruct (E3 b) as [G2 _]. rewrite G1, G2, HX, KX in C. nra. }
  unfold four. cbn [filter fst snd]. rewrite N1, N2, N3, N4. reflexivity.
Qed.

(** A curve with a handle that lies on its end is given up: nothing that it meets is found. *)
Lemma mul_nan (a : T RNum) : @mul RNum a NaN = NaN. Proof. destruct a; reflexivity. Qed.
Lemma nan_mul (a : T RNum) : @mul RNum NaN a = NaN. Proof. destruct a; reflexivity. Qed.
Lemma nan_add (a : T RNum) : @add RNum NaN a = NaN. Proof. destruct a; reflexivity. Qed.
Lemma zero_div : @div RNum (Fin 0) (Fin 0) = NaN. Proof. cbn. unfold er_div. destruct (Reqb_spec 0 0); [|lra]. destruct (Reqb_spec 0 0); [reflexivity|lra]. Qed.
Lemma normal_nan d t : finiteCrv d -> Derivative d t = pnt 0 0 -> px (normal d t) = NaN.
Proof. intros F E. unfold normal. rewrite E. cbn [px py pnt]. fin. rewrite fsqrt by lra. replace (0 * 0 + 0 * 0) with 0 by ring. rewrite sqrt_0. replace (- 0) with 0 by ring. apply zero_div. Qed.
Lemma handle_derivative d : finiteCrv d -> (c_cs d = c_s d -> Derivative d zero = pnt 0 0) /\ (c_ce d = c_e d -> Derivative d one = pnt 0 0).
Proof.
  intros (F1 & F2 & F3 & F4). unfold Derivative, derive1, dpt. split; intros ->; cbn [px py]; rewrite ?(px_fin _ F1), ?(px_fin _ F2), ?(px_fin _ F3), ?(px_fin _ F4), ?(py_fin _ F1), ?(py_fin _ F2), ?(py_fin _ F3), ?(py_fin _ F4); unfold three, two, pnt; fin; f_equal; f_equal; ring.
Qed.
Lemma handle_not_simple tr d : finiteCrv d -> c_cs d = c_s d \/ c_ce d = c_e d -> simple tr RBMath d = false.
Proof.
  intros F H. destruct (handle_derivative d F) as [H0 H1]. unfold simple. destruct (_ || _); [reflexivity|]. destruct H as [H|H].
  - rewrite (normal_nan d zero F (H0 H)), nan_mul, nan_add. reflexivity.
  - rewrite (normal_nan d one F (H1 H)), mul_nan, nan_add. reflexivity.
Qed.
Lemma cubic_handle p0 p1 p2 p3 : p1 = (15 * cubic p0 p1 p2 p3 0 + 6 * cubic p0 p1 p2 p3 1 - 2 * cubic p0 p1 p2 p3 (-1) - cubic p0 p1 p2 p3 2) / 18 /\ p2 = (6 * cubic p0 p1 p2 p3 0 + 15 * cubic p0 p1 p2 p3 1 - cubic p0 p1 p2 p3 (-1) - 2 * cubic p0 p1 p2 p3 2) / 18.
Proof. unfold cubic. split; field. Qed.
Lemma cubic_part_start p0 p1 p2 p3 q0 q1 q2 q3 b : p1 = p0 -> (forall t, cubic q0 q1 q2 q3 t = cubic p0 p1 p2 p3 (0 + (b - 0) * t)) -> q1 = q0.
Proof. intros -> H. destruct (cubic_handle q0 q1 q2 q3) as [-> _]. assert (E0 : q0 = cubic q0 q1 q2 q3 0) by (unfold cubic; ring). rewrite E0 at 5. rewrite !H. unfold cubic. field. Qed.
Lemma cubic_part_end p0 p1 p2 p3 q0 q1 q2 q3 a : p2 = p3 -> (forall t, cubic q0 q1 q2 q3 t = cubic p0 p1 p2 p3 (a + (1 - a) * t)) -> q2 = q3.
Proof. intros -> H. destruct (cubic_handle q0 q1 q2 q3) as [_ ->]. assert (E0 : q3 = cubic q0 q1 q2 q3 1) by (unfold cubic; ring). rewrite E0 at 5. rewrite !H. unfold cubic. field. Qed.
Lemma pt_eq p q : finitePt p -> finitePt q -> X p = X q -> Y p = Y q -> p = q. Proof. intros F G EX EY. rewrite (pnt_eta p F), (pnt_eta q G), EX, EY. reflexivity. Qed.
Theorem C76_handle_refuted tr fuel c l : finiteCrv c -> c_cs c = c_s c \/ c_ce c = c_e c -> reduce tr RBMath fuel c = Ok l -> l = [].
Proof.
  intros F H E. destruct (C76_pieces tr fuel c l F E) as [->|C]; [reflexivity|]. destruct l as [|s0 l0]; [reflexivity|exfalso]. destruct H as [H|H].
  - destruct (covers_at _ _ _ _ _ 0 C ltac:(lra)) as (s & x & y & Hs & HP & Hx); [discriminate|]. destruct (covers_in _ _ _ _ _ _ C Hs) as (_ & _ & _ & _ & _ & HS). destruct HP as (_ & _ & Hxy & Hy & Fd & _ & HE). assert (x = 0) as -> by lra.
    rewrite handle_not_simple in HS; [discriminate|exact Fd|]. left. destruct Fd as (G1 & G2 & G3 & G4). apply pt_eq; try assumption; [apply (cubic_part_start (X (c_s c)) (X (c_cs c)) (X (c_ce c)) (X (c_e c)) _ _ (X (c_ce (cv s))) (X (c_e (cv s))) y)|apply (cubic_part_start (Y (c_s c)) (Y (c_cs c)) (Y (c_ce c)) (Y (c_e c)) _ _ (Y (c_ce (cv s))) (Y (c_e (cv s))) y)]; try (rewrite H; reflexivity); intros t; apply HE.
  - destruct (covers_at _ _ _ _ _ 1 C ltac:(lra)) as (s & x & y & Hs & HP & Hx); [discriminate|]. destruct (covers_in _ _ _ _ _ _ C Hs) as (_ & _ & _ & _ & _ & HS). destruct HP as (_ & _ & Hxy & Hy & Fd & _ & HE). assert (y = 1) as -> by lra.
    rewrite handle_not_simple in HS; [discriminate|exact Fd|]. right. destruct Fd as (G1 & G2 & G3 & G4). apply pt_eq; try assumption; [apply (cubic_part_end (X (c_s c)) (X (c_cs c)) (X (c_ce c)) (X (c_e c)) (X (c_s (cv s))) (X (c_cs (cv s))) _ _ x)|apply (cubic_part_end (Y (c_s c)) (Y (c_cs c)) (Y (c_ce c)) (Y (c_e c)) (Y (c_s (cv s))) (Y (c_cs (cv s))) _ _ x)]; try (rewrite H; reflexivity); intros t; apply HE.
Qed.
Corollary C76_handle_nothing tr fuel c d th l : finiteCrv c -> c_cs c = c_s c \/ c_ce c = c_e c -> (IntersectsCurve tr RBMath fuel c d th = Ok l -> l = []) /\ (IntersectsCurve tr RBMath fuel d c th = Ok l -> l = []).
Proof.
  intros F H. unfold IntersectsCurve. destruct (reduce tr RBMath fuel c) as [lc| | |] eqn:E; cbn [bind]; try (split; [discriminate|destruct (reduce tr RBMath fuel d); discriminate]). rewrite (C76_handle_refuted tr fuel c lc F H E). split.
  - destruct (reduce tr RBMath fuel d); cbn [bind]; try discriminate. intros [= <-]. reflexivity.
  - destruct (reduce tr RBMath fuel d) as [ld| | |]; cbn [bind]; try discriminate. unfold curveIntersects. replace (list_prod ld []) with (@nil (@cseg RNum * @cseg RNum)) by (induction ld; [reflexivity|assumption]). intros [= <-]. reflexivity.
Qed.
(** one that really meets another curve: from (-1, -1) to (1, 1) with both handles on the ends, and the falling line *)
Example C76_handle_ex fuel : (200 <= fuel)%nat -> let c := mkCrv (N := RNum) (pnt (-1) (-1)) (pnt (-1) (-1)) (pnt 1 1) (pnt 1 1) in let d := line3 (-1) 1 (2 / 3) (- (2 / 3)) in
  meet c d (1 / 2) (1 / 2) /\ IntersectsCurve RTrig RBMath fuel c d (Fin (1 / 2) : T RNum) = Ok [].
Proof.
  intros Hf c d. split; [split; unfold d; rewrite ?line3_X, ?line3_Y; unfold curveX, curveY, cubic; cbn [c c_s c_cs c_e c_ce]; rewrite ?pnt_X, ?pnt_Y; lra|]. assert (F : finiteCrv c) by (repeat split).
  destruct (reduce_ends RTrig RBMath fuel c ltac:(lia)) as (lc & E). unfold IntersectsCurve. rewrite E, (C76_handle_refuted RTrig fuel c lc F (or_introl eq_refl) E). cbn [bind]. unfold d. rewrite line3_reduce by (lia || (left; lra)). reflexivity.
Qed.

(** *** examples *)
Lemma ex_passes x y v w t : v <> 0 -> w <> 0 -> passes (curveX (line3 x y v w)) t /\ passes (curveY (line3 x y v w)) t.
Proof.
  intros Hv Hw. split; intros a b H; (split; [destruct (Rlt_le_dec 0 v), (Rlt_le_dec 0 w)|destruct (Rlt_le_dec 0 v), (Rlt_le_dec 0 w)]).
  all: try (exists a; split; [lra|]; rewrite ?line3_X, ?line3_Y; nra). all: exists b; split; [lra|]; rewrite ?line3_X, ?line3_Y; nra.
Qed.
Lemma third_not_cut c t : (forall n k, t <> INR k / 2 ^ n) -> ~ isCut [mkCseg c (Fin 0 : T RNum) (Fin 1 : T RNum)] t.
Proof. intros H (s & a & b & n & k & [<-|[]] & Ea & Eb & Ht). cbn [st1 st2] in Ea, Eb. injection Ea as <-. injection Eb as <-. apply (H n k). rewrite Ht. ring. Qed.
Lemma third_not_dyadic n k : 1 / 3 <> INR k / 2 ^ n.
Proof.
  intros E. assert (Z : 0 < 2 ^ n) by (apply pow_lt; lra). assert (INR (2 ^ n) = INR (3 * k)) as E'. { rewrite mult_INR, pow_INR. replace (INR 2) with 2 by (cbn; ring). replace (INR 3) with 3 by (cbn; ring). apply (f_equal (fun z => z * (3 * 2 ^ n))) in E. replace (1 / 3 * (3 * 2 ^ n)) with (2 ^ n) in E by field. rewrite E. field. lra. }
  apply INR_eq in E'. assert (H : forall m, (2 ^ m mod 3 <> 0)%nat). { induction m as [|m IH]; [cbn; lia|]. cbn [Nat.pow]. intros C. apply IH. pose proof (Nat.div_mod_eq (2 * 2 ^ m) 3). pose proof (Nat.mod_upper_bound (2 ^ m) 3 ltac:(lia)). pose proof (Nat.div_mod_eq (2 ^ m) 3). lia. }
  apply (H n). rewrite E', Nat.mul_comm. apply Nat.mod_mul. lia.
Qed.
(** the lines from (0, 0) to (3, 3) and from (0, 2) to (3, -1) cross in (1, 1), a third along both *)
Example C76_crossing_ex : exists fuel l, IntersectsCurve RTrig RBMath fuel (line3 0 0 1 1) (line3 0 2 1 (-1)) (Fin (1 / 2) : T RNum) = Ok l /\ meet (line3 0 0 1 1) (line3 0 2 1 (-1)) (1 / 3) (1 / 3) /\ found (line3 0 0 1 1) (line3 0 2 1 (-1)) (1 / 2) l (1 / 3) (1 / 3).
Proof.
  assert (S1 : smallCrv (line3 0 0 1 1)) by (apply small_line; apply Rabs_def1; lra). assert (S2 : smallCrv (line3 0 2 1 (-1))) by (apply small_line; apply Rabs_def1; lra).
  destruct (C76_ends RTrig (line3 0 0 1 1) (line3 0 2 1 (-1)) (1 / 2)) as (f & Hf); try assumption; try apply line3_finite; [lra|]. destruct (Hf (f + 104)%nat ltac:(lia)) as (l & E). exists (f + 104)%nat, l. split; [exact E|].
  assert (M : meet (line3 0 0 1 1) (line3 0 2 1 (-1)) (1 / 3) (1 / 3)) by (split; rewrite ?line3_X, ?line3_Y; lra). split; [exact M|].
  eapply (C76_crossing RTrig (f + 104)); try exact E; try exact M; try assumption; try apply line3_finite; try lra; try (apply line3_reduce; [left; lra|lia]); try discriminate; try (apply third_not_cut, third_not_dyadic). left. apply ex_passes; lra.
Qed.
Example C76_found_ex fuel : (103 < fuel)%nat -> finiteCrv para1 /\ smallCrv para1 /\ finiteCrv para2 /\ smallCrv para2 /\ reduce RTrig RBMath fuel para1 <> Ok [] /\ reduce RTrig RBMath fuel para2 <> Ok [].
Proof. intros Hf. unfold para1, para2. rewrite !line3_reduce by (assumption || (left; lra)). split; [apply line3_finite|]. split; [apply small_line; apply Rabs_def1; lra|]. split; [apply line3_finite|]. split; [apply small_line; apply Rabs_def1; lra|]. split; discriminate. Qed.
(** a result with something in it: the hypotheses of [C76_reported] and [C76_pieces] *)
Example C76_reported_ex : exists v, In v [(Fin (1 / 2) : T RNum, Fin (1 / 2) : T RNum)] /\ IntersectsCurve RTrig RBMath 104 para1 para2 (Fin (1 / 2) : T RNum) = Ok [v].
Proof. eexists. split; [left; reflexivity|]. apply (C76_reported_refuted 104). lia. Qed.
Example C76_pieces_ex : exists l, reduce RTrig RBMath 104 para1 = Ok l /\ l <> [].
Proof. eexists. split; [apply line3_reduce; [left; lra|lia]|discriminate]. Qed.
Example C76_crossing_refuted_ex : smallCrv (line3 (1 - 3 * 1) (1 - 3 * 1) (2 * 1) (2 * 1)) /\ smallCrv (line3 (1 - 3 * 2) (1 + 3 * 1) (2 * 2) (- (2 * 1))) /\ 1 / 2 <= 6 * 1 + 6 * 1.
Proof. split; [apply small_line; apply Rabs_def1; lra|]. split; [apply small_line; apply Rabs_def1; lra|lra]. Qed.
