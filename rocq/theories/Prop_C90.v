(** C90: where a curve crosses itself; and C76: crossings that are not at cuts. *)
From Coq Require Import List ZArith Bool Reals Lra Lia Arith Znumtheory.
From Verif Require Import Num RealNum RealTrig PathModel SegOps Bezier PathSpec GeomSpec BezierProofs RootsProofs ReduceProofs ReduceCuts SelfModel Prop_C76 LoopCurve.
Import ListNotations.
Local Open Scope R_scope.

(** *** the search through one pair of pieces stays within them *)
Lemma four_within c d s1 s2 a1 b1 a2 b2 p : piece c s1 a1 b1 -> piece d s2 a2 b2 -> In p (four s1 s2) -> exists x1 y1 x2 y2, piece c (fst p) x1 y1 /\ piece d (snd p) x2 y2 /\ a1 <= x1 /\ y1 <= b1 /\ a2 <= x2 /\ y2 <= b2.
Proof.
  intros P1 P2. destruct (halves_piece _ _ _ _ P1) as [Q1 Q2]. destruct (halves_piece _ _ _ _ P2) as [Q3 Q4]. destruct P1 as (_ & _ & A1 & _). destruct P2 as (_ & _ & A2 & _).
  unfold four. intros [<-|[<-|[<-|[<-|[]]]]]; cbn [fst snd]; do 4 eexists; (split; [eassumption|]); (split; [eassumption|]); lra.
Qed.
Lemma pair_within th c d : finiteCrv c -> smallCrv c -> finiteCrv d -> smallCrv d -> forall fuel s1 s2 a1 b1 a2 b2 l, piece c s1 a1 b1 -> piece d s2 a2 b2 -> CurveOverlaps (cv s1) (cv s2) = true ->
  pairIteration RBMath fuel (Fin th : T RNum) s1 s2 = Ok l -> forall v, In v l -> exists x1 y1 x2 y2, reported th c d x1 y1 x2 y2 v /\ a1 <= x1 /\ y1 <= b1 /\ a2 <= x2 /\ y2 <= b2.
Proof.
  intros F S F' S'. induction fuel as [|f IH]; intros s1 s2 a1 b1 a2 b2 l P1 P2 HO; [discriminate|]. rewrite pairIteration_eq. destruct (_ && _) eqn:EB.
  - intros [= <-] v [<-|[]]. exists a1, b1, a2, b2. split; [apply (leaf th c d s1 s2); assumption|lra].
  - destruct (loopAll _ _) as [r| | |] eqn:EL; cbn [bind]; try discriminate. intros [= <-] v Hv. apply dedup_sub in Hv. apply (loopAll_in _ _ _ EL) in Hv. destruct Hv as (p & r' & Hp & Er & Hv). apply filter_In in Hp. destruct Hp as [Hp HO'].
    destruct (four_within _ _ _ _ _ _ _ _ _ P1 P2 Hp) as (x1 & y1 & x2 & y2 & Q1 & Q2 & K). destruct (IH _ _ _ _ _ _ _ Q1 Q2 HO' Er v Hv) as (z1 & z2 & z3 & z4 & HR & L). exists z1, z2, z3, z4. split; [exact HR|lra].
Qed.

(** *** which pairs of pieces are compared *)
Lemma self_results fuel th l rs : selfLoop RBMath fuel th l = Ok rs -> forall v, In v rs -> exists A a m Q b r, l = A ++ a :: m :: Q /\ In b Q /\ CurveOverlaps (cv a) (cv b) = true /\ pairIteration RBMath fuel th a b = Ok r /\ In v r.
Proof.
  revert rs. induction l as [|a l IH]; intros rs; cbn [selfLoop]; [intros [= <-] v []|]. destruct l as [|m Q]; [intros [= <-] v []|].
  destruct (curveIntersects _ _ _ _ _) as [x| | |] eqn:EX; cbn [bind]; try discriminate. destruct (selfLoop _ _ _ _) as [y| | |] eqn:EY in |- *; cbn [bind]; try discriminate. intros [= <-] v Hv. apply in_app_iff in Hv. destruct Hv as [Hv|Hv].
  - unfold curveIntersects in EX. rewrite pairAll_eq in EX. apply (loopAll_in _ _ _ EX) in Hv. destruct Hv as ([s1 s2] & r & Hp & Er & Hv). apply filter_In in Hp. destruct Hp as [Hp HO]. cbn [fst snd] in *. apply in_prod_iff in Hp. destruct Hp as [[<-|[]] HI].
    exists [], a, m, Q, s2, r. auto.
  - destruct (IH _ EY v Hv) as (A & a' & m' & Q' & b & r & E & K). exists (a :: A), a', m', Q', b, r. rewrite E. auto.
Qed.
Lemma self_pairs fuel th : forall A M B rs a b, M <> [] -> selfLoop RBMath fuel th (A ++ M ++ B) = Ok rs -> In a A -> In b B -> CurveOverlaps (cv a) (cv b) = true -> exists r, pairIteration RBMath fuel th a b = Ok r /\ incl r rs.
Proof.
  induction A as [|a' A IH]; intros M B rs a b HM E HA HB HO; [destruct HA|]. cbn [app selfLoop] in E. assert (exists m Q, A ++ M ++ B = m :: Q /\ In b Q) as (m & Q & EQ & HQ).
  { destruct A as [|m A]; cbn [app]; [destruct M as [|m M]; [congruence|]; exists m, (M ++ B); split; [reflexivity|apply in_app_iff; auto]|exists m, (A ++ M ++ B); split; [reflexivity|rewrite !in_app_iff; auto]]. }
  pose proof (IH M B) as IH'. rewrite EQ in *. destruct (curveIntersects _ _ _ _ _) as [x| | |] eqn:EX; cbn [bind] in E; try discriminate. destruct (selfLoop _ _ _ _) as [y| | |] eqn:EY in E; cbn [bind] in E; try discriminate. injection E as <-. destruct HA as [<-|HA].
  - unfold curveIntersects in EX. rewrite pairAll_eq in EX. destruct (proj2 (loopAll_in _ _ _ EX) (a', b)) as (r & Er & Hr); [apply filter_In; split; [apply in_prod_iff; split; [left; reflexivity|exact HQ]|exact HO]|]. exists r. split; [exact Er|]. apply incl_appl, Hr.
  - destruct (IH' y a b HM EY HA HB HO) as (r & Er & Hr). exists r. split; [exact Er|]. apply incl_appr, Hr.
Qed.

Section Claims.
Variable tr : Trig RNum.
Notation reduce := (reduce tr RBMath).
Notation IntersectsSelf := (IntersectsSelf tr RBMath).
Notation IntersectsCurve := (IntersectsCurve tr RBMath).

(** a cut is at every place where a curve is level or upright *)
Lemma still_isCut fuel c l t : finiteCrv c -> ~ straight c -> reduce fuel c = Ok l -> l <> [] -> 0 <= t <= 1 -> speedX c t = 0 \/ speedY c t = 0 -> isCut l t.
Proof.
  intros F NS E NE Ht HS. destruct (reduce_cut tr RBMath fuel c l t F E NE (still_param c t F NS Ht HS)) as (l1 & l2 & -> & C1 & C2). destruct l2 as [|s l2].
  - rewrite app_nil_r in *. inversion C2; subst. destruct (covers_at _ _ _ _ _ 1 C1 ltac:(lra) NE) as (s & x & y & HI & (E1 & E2 & A & B & _) & K). exists s, x, y, 0%nat, 1%nat. split; [exact HI|]. split; [exact E1|]. split; [exact E2|]. cbn. lra.
  - inversion C2 as [|? m ? ? ? (E1 & E2 & _) _ _]; subst. exists s, t, m, 0%nat, 0%nat. split; [apply in_app_iff; right; left; reflexivity|]. split; [exact E1|]. split; [exact E2|]. cbn. lra.
Qed.
Lemma uncut_passes fuel c l u : finiteCrv c -> ~ straight c -> reduce fuel c = Ok l -> l <> [] -> 0 <= u <= 1 -> ~ isCut l u -> passes (curveX c) u /\ passes (curveY c) u.
Proof.
  intros F NS E NE Hu HC. split; intros a b Hab.
  - apply (passed (curveX c) u (speedX c u) (speedX_lim c u)); [|exact Hab]. intros Z. apply HC. eapply still_isCut; eauto.
  - apply (passed (curveY c) u (speedY c u) (speedY_lim c u)); [|exact Hab]. intros Z. apply HC. eapply still_isCut; eauto.
Qed.
(** A point where two curves meet is reported, if one of them is not straight and the search cuts neither of them there. *)
Theorem C76_meeting fuel c d th l1 l2 l u w : finiteCrv c -> smallCrv c -> finiteCrv d -> smallCrv d -> reduce fuel c = Ok l1 -> reduce fuel d = Ok l2 -> l1 <> [] -> l2 <> [] -> IntersectsCurve fuel c d (Fin th : T RNum) = Ok l ->
  0 <= u <= 1 -> 0 <= w <= 1 -> meet c d u w -> ~ isCut l1 u -> ~ isCut l2 w -> ~ straight c \/ ~ straight d -> found c d th l u w.
Proof.
  intros F S F' S' E1 E2 N1 N2 E Hu Hw M C1 C2 NS. apply (C76_crossing tr fuel c d th l1 l2); try assumption. destruct NS as [NS|NS]; [left|right]; eapply uncut_passes; eauto.
Qed.

(** Parameters that are reported for a curve are, up to five decimals, those of two points of it that are close together, with a whole piece of the curve between them. *)
Theorem C90_reported fuel c th l v : finiteCrv c -> smallCrv c -> reduce fuel c = Ok l -> IntersectsSelf fuel c (Fin th : T RNum) = Ok (Some v) ->
  exists m n u w, v = (Fin (INR m / 100000) : T RNum, Fin (INR n / 100000) : T RNum) /\ 0 <= u /\ w <= 1 /\ rounded u m /\ rounded w n /\ apart c c u w < 2 * th /\
    exists s a b, In s l /\ piece c s a b /\ u < a /\ b < w.
Proof.
  intros F S ER. unfold SelfModel.IntersectsSelf. rewrite ER. cbn [bind]. destruct (selfLoop _ _ _ _) as [rs| | |] eqn:EL; cbn [bind]; try discriminate. intros E. assert (HE : hd_error rs = Some v) by congruence. clear E. assert (Hv : In v rs) by (destruct rs as [|x rs]; cbn in HE; [discriminate|left; congruence]).
  destruct (self_results _ _ _ _ EL v Hv) as (A & s1 & m0 & Q & s2 & r & -> & HQ & HO & Er & Hr). destruct (C76_pieces tr _ _ _ F ER) as [K|C]; [destruct A; discriminate|]. destruct (covers_app_inv _ _ _ _ _ _ C) as (t & _ & C1). inversion C1 as [|? t1 ? ? ? P1 _ C2]; subst. inversion C2 as [|? t2 ? ? ? P0 _ C3]; subst.
  destruct (covers_in _ _ _ _ _ _ C3 HQ) as (a2 & b2 & P2 & L2 & L3 & _). destruct (pair_within th c c F S F S _ _ _ _ _ _ _ _ P1 P2 HO Er v Hr) as (x1 & y1 & x2 & y2 & (m & n & c' & d' & -> & Hm & Hn & A1 & B1 & A2 & B2 & G1 & G2 & HO' & s & s' & Es & Es' & Ls & Ls') & W1 & W2 & W3 & W4).
  exists m, n, ((x1 + y1) / 2), ((x2 + y2) / 2). split; [reflexivity|]. split; [lra|]. split; [lra|]. split; [exact Hm|]. split; [exact Hn|]. split.
  - destruct G1 as (FC & SC & EC). destruct G2 as (FD & SD & ED). pose proof (overlap_apart c' d' s s' (1 / 2) (1 / 2) FC (SC S) FD (SD S) HO' Es Es' ltac:(lra) ltac:(lra)) as HA. unfold apart in *. destruct (EC (1 / 2)) as [EC1 EC2]. destruct (ED (1 / 2)) as [ED1 ED2]. rewrite EC1, EC2, ED1, ED2 in HA.
    replace (x1 + (y1 - x1) * (1 / 2)) with ((x1 + y1) / 2) in HA by field. replace (x2 + (y2 - x2) * (1 / 2)) with ((x2 + y2) / 2) in HA by field. lra.
  - exists m0, t1, t2. split; [apply in_app_iff; right; right; left; reflexivity|]. split; [exact P0|]. destruct P1 as (_ & _ & P1 & _). lra.
Qed.

(** A curve that crosses itself, away from the places where the search cuts it, is found to do so, unless it is given up. *)
Theorem C90_found fuel c th l r u w : finiteCrv c -> smallCrv c -> ~ straight c -> reduce fuel c = Ok l -> l <> [] -> IntersectsSelf fuel c (Fin th : T RNum) = Ok r ->
  0 <= u -> u < w -> w <= 1 -> meet c c u w -> ~ isCut l u -> ~ isCut l w -> r <> None.
Proof.
  intros F S NS ER NE E Hu Huw Hw [MX MY] C1 C2. destruct (crossing_still c u w NS Huw MX MY) as (t1 & t2 & L1 & L2 & L3 & Z1 & Z2).
  destruct (reduce_cuts tr RBMath fuel c l t1 t2 F ER NE (still_param c t1 F NS ltac:(lra) Z1) (still_param c t2 F NS ltac:(lra) Z2) L2) as (A & M & B & EL & HM & CA & CM & CB).
  assert (NA : A <> []) by (intros ->; inversion CA; subst; lra). assert (NB : B <> []) by (intros ->; inversion CB; subst; lra).
  destruct (covers_at _ _ _ _ _ u CA ltac:(lra) NA) as (s1 & a1 & b1 & I1 & P1 & U1). destruct (covers_at _ _ _ _ _ w CB ltac:(lra) NB) as (s2 & a2 & b2 & I2 & P2 & U2).
  unfold SelfModel.IntersectsSelf in E. rewrite ER in E. cbn [bind] in E. destruct (selfLoop _ _ _ _) as [rs| | |] eqn:ES; cbn [bind] in E; try discriminate. assert (Hr : hd_error rs = r) by congruence. clear E.
  assert (HT : (exists v, In v rs) -> r <> None) by (intros (v & Hv) ->; destruct rs; [destruct Hv|discriminate]). apply HT. clear HT Hr.
  set (I := fun (t a b : R) => forall n k, t <> a + (b - a) * (INR k / 2 ^ n)).
  assert (HH : forall t, halving (I t)). { intros t a b H. assert (Z : forall n, 2 ^ n <> 0) by (intros n; apply pow_nonzero; lra). split; intros n k Ht.
    - apply (H (Datatypes.S n) k). rewrite Ht. cbn [pow]. field. apply Z.
    - apply (H (Datatypes.S n) (2 ^ n + k)%nat). rewrite Ht, plus_INR, pow_INR. replace (INR 2) with 2 by (cbn; ring). cbn [pow]. field. apply Z. }
  assert (HC : forall t, ~ isCut l t -> forall s a b, In s l -> piece c s a b -> I t a b). { intros t HN s a b Hs (G1 & G2 & _) n k Ht. apply HN. exists s, a, b, n, k. auto. }
  assert (J1 : I u a1 b1) by (apply (HC u C1 s1); [rewrite EL; apply in_app_iff; auto|exact P1]). assert (J2 : I w a2 b2) by (apply (HC w C2 s2); [rewrite EL; rewrite !in_app_iff; auto|exact P2]).
  assert (HB : (exists v, In v rs) \/ touching (I u) (I w) c c u w).
  { destruct (CurveOverlaps (cv s1) (cv s2)) eqn:EO.
    - rewrite EL in ES. destruct (self_pairs fuel (Fin th : T RNum) A M B rs s1 s2 HM ES I1 I2 EO) as (r' & Er & Hr). destruct (pair_complete (I u) (I w) th c c u w (HH u) (HH w) F S F S _ _ _ _ _ _ _ _ P1 P2 J1 J2 EO U1 U2 Er) as [(v & _ & _ & _ & _ & Hv & _)|K]; [left; exists v; apply Hr, Hv|right; exact K].
    - right. destruct P1 as (_ & _ & A1 & B1 & G1). destruct P2 as (_ & _ & A2 & B2 & G2). exists (cv s1), (cv s2), a1, b1, a2, b2. do 10 (split; [assumption|]). exact EO. }
  destruct HB as [HB|HB]; [exact HB|exfalso]. destruct (touching_beside _ _ _ _ _ _ S S HB) as (x1 & y1 & x2 & y2 & X1 & X2 & _ & _ & _ & _ & Ku & Kw & BE).
  assert (HI : forall t a b, I t a b -> a <= t <= b -> a < t < b). { intros t a b H [Q1 Q2]. pose proof (H 0%nat 0%nat) as H0. pose proof (H 0%nat 1%nat) as H1. cbn in H0, H1. split; [destruct Q1 as [Q1|Q1]; [exact Q1|exfalso; apply H0; lra]|destruct Q2 as [Q2|Q2]; [exact Q2|exfalso; apply H1; lra]]. }
  destruct (uncut_passes fuel c l u F NS ER NE ltac:(lra) C1) as [PX PY]. pose proof (HI _ _ _ X1 Ku) as Su. destruct (PX x1 y1 Su) as [(p1 & Q1 & R1) (p2 & Q2 & R2)]. destruct (PY x1 y1 Su) as [(p3 & Q3 & R3) (p4 & Q4 & R4)].
  destruct BE as [BE|[BE|[BE|BE]]]; [specialize (BE p2 w Q2 Kw)|specialize (BE p1 w Q1 Kw)|specialize (BE p4 w Q4 Kw)|specialize (BE p3 w Q3 Kw)]; lra.
Qed.

(** With a positive threshold the search comes to an end. *)
Theorem C90_ends c th : finiteCrv c -> smallCrv c -> 0 < th -> exists fuel0, forall fuel, (fuel0 <= fuel)%nat -> exists r, IntersectsSelf fuel c (Fin th : T RNum) = Ok r.
Proof.
  intros F S Hth. destruct (section_size c S) as (K & PK & HK).
  assert (exists n, K < th * 2 ^ n) as (n & Hn). { destruct (Pow_x_infinity 2 ltac:(rewrite Rabs_right; lra) ((K + 1) / th)) as (n & Hn). exists n. specialize (Hn n (le_n n)). rewrite Rabs_right in Hn by (apply Rle_ge, pow_le; lra). apply Rge_le in Hn. apply (Rmult_le_compat_l th) in Hn; [|lra]. replace (th * ((K + 1) / th)) with (K + 1) in Hn by (field; lra). lra. }
  exists (n + 105)%nat. intros fuel Hf. unfold SelfModel.IntersectsSelf. destruct (reduce_ends tr RBMath fuel c ltac:(lia)) as (l & E). rewrite E. cbn [bind]. assert (HP : forall s, In s l -> exists a b, piece c s a b). { destruct (C76_pieces tr _ _ _ F E) as [->|C]; [intros s []|]. intros s Hs. exact (covers_pieces _ _ _ _ C Hs). }
  assert (G : forall a q, In a l -> incl q l -> exists x, curveIntersects RBMath fuel [a] q (Fin th : T RNum) = Ok x).
  { intros a q Ha Hq. unfold curveIntersects. rewrite pairAll_eq. assert (GG : forall ps, incl ps (list_prod [a] q) -> exists x, loopAll (pairIteration RBMath fuel (Fin th : T RNum)) ps = Ok x).
    { induction ps as [|[s1 s2] ps IH]; intros HI; [eexists; reflexivity|]. cbn [loopAll fst snd]. fold (loopAll (pairIteration RBMath fuel (Fin th : T RNum))). assert (HI' := HI (s1, s2) (or_introl eq_refl)). apply in_prod_iff in HI'. destruct HI' as [[<-|[]] I2].
      destruct (HP _ Ha) as (a1 & b1 & P1). destruct (HP _ (Hq _ I2)) as (a2 & b2 & P2). destruct (pair_ends th c c K K HK HK n fuel a s2 a1 b1 a2 b2 ltac:(lia) P1 P2) as (x & ->).
      { destruct P1 as (_ & _ & A & B & _). nra. } { destruct P2 as (_ & _ & A & B & _). nra. }
      cbn [bind]. destruct IH as (b & ->); [intros p Hp; apply HI; right; exact Hp|]. eexists. reflexivity. }
    apply GG. intros p Hp. apply filter_In in Hp. apply Hp. }
  assert (GS : forall q, incl q l -> exists rs, selfLoop RBMath fuel (Fin th : T RNum) q = Ok rs).
  { induction q as [|a q IH]; intros HI; cbn [selfLoop]; [eauto|]. destruct q as [|b q]; [eauto|]. destruct (G a q) as (x & ->); [apply HI; left; reflexivity|intros p Hp; apply HI; right; right; exact Hp|]. cbn [bind]. destruct IH as (y & ->); [intros p Hp; apply HI; right; exact Hp|]. cbn [bind]. eauto. }
  destruct (GS l (incl_refl l)) as (rs & ->). cbn [bind]. eauto.
Qed.
End Claims.

Lemma loop_bent k b R : 0 < k -> 0 < b -> 0 < R -> ~ straight (loopc (3 * b * b) k (- R) R).
Proof.
  intros Hk Hb HR. set (c := loopc _ _ _ _).
  intros (a & a' & d & Hn & H). assert (G : forall s, a * (s ^ 3 - 3 * b * b * s) + a' * (k * s ^ 2) = d). { intros s. rewrite <- (H (1 / 2 + s / (2 * R))). unfold c. rewrite loop_X, loop_Y. replace (- R + (R - - R) * (1 / 2 + s / (2 * R))) with s by (field; lra). reflexivity. }
    pose proof (G 0) as G0. pose proof (G b) as G1. pose proof (G (- b)) as G2. assert (P3 : 0 < b ^ 3) by (apply pow_lt; lra). assert (P2 : 0 < k * b ^ 2) by (apply Rmult_lt_0_compat; [lra|apply pow_lt; lra]).
    replace (a * (0 ^ 3 - 3 * b * b * 0) + a' * (k * 0 ^ 2)) with 0 in G0 by ring. assert (Ea' : a' * (k * b ^ 2) = 0) by (replace (a' * (k * b ^ 2)) with ((a * (b ^ 3 - 3 * b * b * b) + a' * (k * b ^ 2) + (a * ((- b) ^ 3 - 3 * b * b * - b) + a' * (k * (- b) ^ 2))) / 2) by field; rewrite G1, G2, <- G0; field).
    assert (Z' : a' = 0) by (apply Rmult_integral in Ea'; destruct Ea'; lra). assert (Ea : a * b ^ 3 = 0) by (rewrite Z' in G1; replace (a * b ^ 3) with (- (a * (b ^ 3 - 3 * b * b * b) + 0 * (k * b ^ 2)) / 2) by field; rewrite G1, <- G0; field). apply Rmult_integral in Ea. destruct Ea; [|lra]. destruct Hn; lra.
Qed.
(** the piece that ends at the tip of a narrow loop turns by more than 60 degrees in its last hundredth, so that the curve is given up *)
Lemma narrow_reduce fuel k b R : 0 < b -> 2 * b <= R -> 1000 * b <= 3 * k -> (103 < fuel)%nat -> let c := loopc (3 * b * b) k (- R) R in reduce RTrig RBMath fuel c = Ok [].
Proof.
  intros Hb HR Hk Hf c. destruct (reduce_ends RTrig RBMath fuel c Hf) as (l & E). rewrite E. assert (HP := loop_pass1 k b R ltac:(lra) ltac:(lra)). cbv zeta in HP. fold c in HP.
    rewrite (gives_up RTrig RBMath fuel c (mkCseg (loopc (3 * b * b) k (- b) 0) (Fin (1 / 2 - b / (2 * R)) : T RNum) (Fin (1 / 2) : T RNum)) l); [reflexivity| | |exact E].
    + rewrite HP. right; left; reflexivity.
    + intros n Hn. assert (L : INR n <= 99) by (replace 99 with (INR 99) by (rewrite INR_IZR_INZ; reflexivity); apply le_INR; lia). pose proof (pos_INR n). rewrite loop_sec by lra. set (x := 1 - INR n / 100). replace (- b + (0 - - b) * (INR n / 100)) with (- (b * x)) by (unfold x; ring). replace (- b + (0 - - b) * 1) with 0 by ring.
      assert (Hx : 1 / 100 <= x <= 1) by (unfold x; lra). apply not_true_is_false. intros C. apply loop_simple_only in C; [|lra|nra|nra]. destruct C as [_ C]. unfold crossC, dotD in C.
      replace (2 * k * (- (b * x) - 0) * (3 * - (b * x) * 0 + 3 * b * b) * (2 * k * (- (b * x) - 0) * (3 * - (b * x) * 0 + 3 * b * b))) with ((b * b * b) * (b * b * b) * (36 * (k * k) * (x * x))) in C by ring.
      match type of C with _ < ?z => replace z with ((b * b * b) * (b * b * b) * (243 * (b * b) * ((1 - x * x) * (1 - x * x)))) in C by ring end. assert (P : 0 < b * b * b * (b * b * b)) by (repeat apply Rmult_lt_0_compat; lra). apply Rmult_lt_reg_l in C; [|exact P].
      assert (1000000 * (b * b) <= 9 * (k * k)) by nra. assert (X2 : 1 / 10000 <= x * x <= 1) by nra. assert ((1 - x * x) * (1 - x * x) <= 1) by nra. assert (0 <= b * b) by nra.
      assert (243 * (b * b) * ((1 - x * x) * (1 - x * x)) <= 243 * (b * b)) by nra. assert (36 * (k * k) * (1 / 10000) <= 36 * (k * k) * (x * x)) by nra. nra.
Qed.
(** A loop that is lost: x = s^3 - 3 b^2 s, y = k s^2 crosses itself where s^2 = 3 b^2. If the loop is narrow, the piece that ends at its tip turns by more than 60 degrees in its last hundredth; the curve is then given up and no crossing is found, with whatever threshold. *)
Theorem C90_narrow_refuted fuel k b R th : 0 < b -> 2 * b <= R -> 1000 * b <= 3 * k -> (103 < fuel)%nat -> let c := loopc (3 * b * b) k (- R) R in
  (exists u w, 0 <= u /\ u < w /\ w <= 1 /\ meet c c u w) /\ ~ straight c /\ IntersectsSelf RTrig RBMath fuel c th = Ok None.
Proof.
  intros Hb HR Hk Hf c. assert (Hs : 0 < sqrt 3 < 2). { split; [apply sqrt_lt_R0; lra|]. rewrite <- (sqrt_square 2) by lra. apply sqrt_lt_1; lra. } assert (HQ : sqrt 3 * sqrt 3 = 3) by (apply sqrt_sqrt; lra). split; [|split].
  - set (q := sqrt 3) in *. assert (EX : forall x, - R + (R - - R) * (1 / 2 + x / (2 * R)) = x) by (intros x; field; lra). exists (1 / 2 + - (q * b) / (2 * R)), (1 / 2 + q * b / (2 * R)).
    assert (0 < q * b / (2 * R)) by (apply Rdiv_lt_0_compat; [apply Rmult_lt_0_compat; lra|lra]). assert (q * b / (2 * R) <= 1 / 2). { apply (Rmult_le_reg_r (2 * R)); [lra|]. replace (q * b / (2 * R) * (2 * R)) with (q * b) by (field; lra). nra. }
    assert (- (q * b) / (2 * R) = - (q * b / (2 * R))) as E by (field; lra). split; [rewrite E; lra|]. split; [rewrite E; lra|]. split; [lra|].
    split; unfold c; rewrite ?loop_X, ?loop_Y, !EX; [|ring]. replace ((- (q * b)) ^ 3 - 3 * b * b * - (q * b)) with (- ((q * q) * q * b ^ 3) + 3 * q * b ^ 3) by ring. replace ((q * b) ^ 3 - 3 * b * b * (q * b)) with ((q * q) * q * b ^ 3 - 3 * q * b ^ 3) by ring. rewrite HQ. ring.
  - apply loop_bent; lra.
  - unfold IntersectsSelf. pose proof (narrow_reduce fuel k b R Hb HR Hk Hf) as E. cbv zeta in E. fold c in E. rewrite E. reflexivity.
Qed.

(** *** a loop that is found: x = s^3 - 3 s, y = 2 s^2 for s from -7/4 to 7/4 *)
Definition loop0 := loopc (3 * 1 * 1) 2 (- (7 / 4)) (7 / 4).
Lemma part_simple s r : s < r -> 0 < 3 * 1 * 1 + s * s + 2 * s * r -> 0 < 3 * 1 * 1 + r * r + 2 * s * r -> 0 <= s * r + 1 -> 120 * ((r - s) * (s * r + 1)) < 17 * (9 * (s * s - 1) * (r * r - 1) + 16 * (s * r)) ->
  simple RTrig RBMath (loopc (3 * 1 * 1) 2 s r) = true.
Proof.
  intros H H1 H2 H3 H4. apply loop_simple; try lra. unfold dotD, crossC. replace ((3 * s * s - 3 * 1 * 1) * (3 * r * r - 3 * 1 * 1) + 4 * 2 * 2 * s * r) with (9 * (s * s - 1) * (r * r - 1) + 16 * (s * r)) by ring. set (D := 9 * (s * s - 1) * (r * r - 1) + 16 * (s * r)) in *.
  replace (2 * 2 * (s - r) * (3 * s * r + 3 * 1 * 1) * (2 * 2 * (s - r) * (3 * s * r + 3 * 1 * 1))) with (144 * ((r - s) * (s * r + 1)) * ((r - s) * (s * r + 1))) by ring. assert (HC : 0 <= (r - s) * (s * r + 1)) by (apply Rmult_le_pos; lra). set (C := (r - s) * (s * r + 1)) in *. split; [lra|]. nra.
Qed.
Lemma INR_Z n z : Z.of_nat n = z -> INR n = IZR z. Proof. intros <-. apply INR_IZR_INZ. Qed.
Lemma INR_bounds i a b : (a <= i <= b)%nat -> INR a <= INR i <= INR b. Proof. intros [H1 H2]. split; apply le_INR; assumption. Qed.
Ltac bounds i Hi := let H := fresh "HB" in pose proof (INR_bounds i _ _ Hi) as H; repeat match type of H with context [INR (S ?n)] => rewrite (INR_Z (S n) _ eq_refl) in H end; cbn [Z.of_nat Pos.of_succ_nat Pos.succ] in H.
Lemma loop0_reduce fuel : (103 < fuel)%nat -> exists d1 d2 d3 d4 d5 d6, reduce RTrig RBMath fuel loop0 =
  Ok [mkCseg d1 (Fin 0 : T RNum) (Fin (3 / 14) : T RNum); mkCseg d2 (Fin (3 / 14) : T RNum) (Fin (3 / 14 + 2 / 7 * (62 / 100)) : T RNum); mkCseg d3 (Fin (3 / 14 + 2 / 7 * (62 / 100)) : T RNum) (Fin (1 / 2) : T RNum);
      mkCseg d4 (Fin (1 / 2) : T RNum) (Fin (1 / 2 + 2 / 7 * (68 / 100)) : T RNum); mkCseg d5 (Fin (1 / 2 + 2 / 7 * (68 / 100)) : T RNum) (Fin (11 / 14) : T RNum); mkCseg d6 (Fin (11 / 14) : T RNum) (Fin 1 : T RNum)].
Proof.
  intros Hf. pose proof (loop_pass1 2 1 (7 / 4) ltac:(lra) ltac:(lra)) as HP. cbv zeta in HP. fold loop0 in HP. replace (1 / 2 - 1 / (2 * (7 / 4))) with (3 / 14) in HP by field. replace (1 / 2 + 1 / (2 * (7 / 4))) with (11 / 14) in HP by field.
  unfold reduce. rewrite HP. set (p1 := mkCseg (loopc _ _ (- (7 / 4)) (- (1))) _ _). set (p2 := mkCseg (loopc _ _ (- (1)) 0) _ _). set (p3 := mkCseg (loopc _ _ 0 1) _ _). set (p4 := mkCseg (loopc _ _ 1 (7 / 4)) _ _). cbn [reduceLoop].
  destruct (pass2_whole RTrig RBMath p1 0 (3 / 14) fuel eq_refl eq_refl Hf) as (d1 & ->).
  { intros i Hi. bounds i Hi. unfold p1. rewrite loop_sec by lra. set (r := - (7 / 4) + (- (1) - - (7 / 4)) * (INR i / 100)). replace (- (7 / 4) + (- (1) - - (7 / 4)) * 0) with (- (7 / 4)) by ring. assert (- (7 / 4) < r <= - (99 / 100)) by (unfold r; lra). apply part_simple; nra. }
  cbn [bind]. destruct (pass2_once RTrig RBMath p2 (3 / 14) (1 / 2) 62 fuel eq_refl eq_refl Hf) as (d2 & d3 & ->); [lia| | | |].
  { intros i Hi. bounds i Hi. unfold p2. rewrite loop_sec by lra. set (r := - (1) + (0 - - (1)) * (INR i / 100)). replace (- (1) + (0 - - (1)) * 0) with (- (1)) by ring. assert (- (1) < r <= - (38 / 100)) by (unfold r; lra). apply part_simple; nra. }
  { unfold p2. rewrite (INR_Z 63 63 eq_refl). rewrite loop_sec by lra. apply not_true_is_false. intros C. apply loop_simple_only in C; [|lra|lra|lra]. unfold dotD, crossC in C. lra. }
  { intros i Hi1 Hi2. assert (Hi : (1 <= i <= 39)%nat) by lia. bounds i Hi. unfold p2. rewrite (INR_Z 62 62 eq_refl). rewrite loop_sec by lra. set (r := - (1) + (0 - - (1)) * (62 / 100 + INR i / 100)). replace (- (1) + (0 - - (1)) * (62 / 100)) with (- (38 / 100)) by field. assert (- (38 / 100) < r <= 1 / 100) by (unfold r; lra). apply part_simple; nra. }
  cbn [bind]. destruct (pass2_once RTrig RBMath p3 (1 / 2) (11 / 14) 68 fuel eq_refl eq_refl Hf) as (d4 & d5 & ->); [lia| | | |].
  { intros i Hi. bounds i Hi. unfold p3. rewrite loop_sec by lra. set (r := 0 + (1 - 0) * (INR i / 100)). replace (0 + (1 - 0) * 0) with 0 by ring. assert (0 < r <= 68 / 100) by (unfold r; lra). apply part_simple; nra. }
  { unfold p3. rewrite (INR_Z 69 69 eq_refl). rewrite loop_sec by lra. apply not_true_is_false. intros C. apply loop_simple_only in C; [|lra|lra|lra]. unfold dotD, crossC in C. lra. }
  { intros i Hi1 Hi2. assert (Hi : (1 <= i <= 33)%nat) by lia. bounds i Hi. unfold p3. rewrite (INR_Z 68 68 eq_refl). rewrite loop_sec by lra. set (r := 0 + (1 - 0) * (68 / 100 + INR i / 100)). replace (0 + (1 - 0) * (68 / 100)) with (68 / 100) by field. assert (68 / 100 < r <= 101 / 100) by (unfold r; lra). apply part_simple; nra. }
  cbn [bind]. destruct (pass2_whole RTrig RBMath p4 (11 / 14) 1 fuel eq_refl eq_refl Hf) as (d6 & ->).
  { intros i Hi. bounds i Hi. unfold p4. rewrite loop_sec by lra. set (r := 1 + (7 / 4 - 1) * (INR i / 100)). replace (1 + (7 / 4 - 1) * 0) with 1 by ring. assert (1 < r <= 1 + 3 / 4 * (101 / 100)) by (unfold r; lra). apply part_simple; nra. }
  cbn [bind app]. exists d1, d2, d3, d4, d5, d6. rewrite (INR_Z 62 62 eq_refl), (INR_Z 68 68 eq_refl). replace (1 / 2 - 3 / 14) with (2 / 7) by field. replace (11 / 14 - 1 / 2) with (2 / 7) by field. reflexivity.
Qed.

(** *** rational parameters *)
Definition rat (x : R) : Prop := exists p q : Z, q <> 0%Z /\ x = IZR p / IZR q.
Lemma rat_plus x y : rat x -> rat y -> rat (x + y).
Proof. intros (p & q & Hq & ->) (p' & q' & Hq' & ->). exists (p * q' + p' * q)%Z, (q * q')%Z. split; [lia|]. rewrite plus_IZR, !mult_IZR. apply not_0_IZR in Hq, Hq'. field. auto. Qed.
Lemma rat_mult x y : rat x -> rat y -> rat (x * y).
Proof. intros (p & q & Hq & ->) (p' & q' & Hq' & ->). exists (p * p')%Z, (q * q')%Z. split; [lia|]. rewrite !mult_IZR. apply not_0_IZR in Hq, Hq'. field. auto. Qed.
Lemma rat_Z z : rat (IZR z). Proof. exists z, 1%Z. split; [lia|]. field. Qed.
Lemma rat_div p q : q <> 0%Z -> rat (IZR p / IZR q). Proof. intros H. exists p, q. auto. Qed.
Lemma rat_opp x : rat x -> rat (- x). Proof. intros H. replace (- x) with (-1 * x) by ring. apply rat_mult; [apply (rat_Z (-1))|exact H]. Qed.
Lemma rat_pow n : rat (/ 2 ^ n).
Proof. exists 1%Z, (2 ^ Z.of_nat n)%Z. split; [apply Z.pow_nonzero; lia|]. rewrite <- pow_IZR. field. apply pow_nonzero. lra. Qed.
Lemma no_third n : forall p q : Z, (Z.abs_nat q < n)%nat -> (p * p = 3 * (q * q))%Z -> q = 0%Z.
Proof.
  induction n as [|n IH]; intros p q Hn H; [lia|]. destruct (Z.eq_dec q 0) as [E|NE]; [exact E|exfalso]. assert (D3 : forall x, (3 | x * x)%Z -> (3 | x)%Z) by (intros x Hx; destruct (prime_mult 3 prime_3 x x Hx); assumption).
  destruct (D3 p) as (p' & ->); [exists (q * q)%Z; lia|]. destruct (D3 q) as (q' & ->); [exists (p' * p')%Z; lia|]. apply NE. rewrite (IH p' q'); [reflexivity|lia|lia].
Qed.
Lemma root3_not_rat : ~ rat (sqrt 3).
Proof.
  intros (p & q & Hq & E). assert (H : sqrt 3 * sqrt 3 = 3) by (apply sqrt_sqrt; lra). pose proof (not_0_IZR _ Hq) as Hq'. rewrite E in H. apply Hq, (no_third (S (Z.abs_nat q)) p q); [lia|]. apply eq_IZR. rewrite !mult_IZR. replace (IZR p * IZR p) with (IZR p / IZR q * (IZR p / IZR q) * (IZR q * IZR q)) by (field; exact Hq'). rewrite H. ring.
Qed.
Lemma cut_rat l t : (forall s, In s l -> exists a b, st1 s = (Fin a : T RNum) /\ st2 s = (Fin b : T RNum) /\ rat a /\ rat b) -> isCut l t -> rat t.
Proof.
  intros H (s & a & b & n & k & HI & E1 & E2 & ->). destruct (H s HI) as (a' & b' & G1 & G2 & R1 & R2). rewrite E1 in G1. rewrite E2 in G2. injection G1 as <-. injection G2 as <-. apply rat_plus; [exact R1|]. apply rat_mult; [apply rat_plus; [exact R2|apply rat_opp, R1]|]. apply rat_mult; [rewrite INR_IZR_INZ; apply rat_Z|apply rat_pow].
Qed.
(** loop0 crosses itself in (0, 6), where s is the root of 3 *)
Definition loop0u : R := 1 / 2 - sqrt 3 / (7 / 2).
Definition loop0w : R := 1 / 2 + sqrt 3 / (7 / 2).
Lemma loop0_uw : 0 <= loop0u /\ loop0u < loop0w /\ loop0w <= 1.
Proof. assert (0 < sqrt 3 < 7 / 4). { split; [apply sqrt_lt_R0; lra|]. rewrite <- (sqrt_square (7 / 4)) by lra. apply sqrt_lt_1; lra. } unfold loop0u, loop0w. lra. Qed.
Lemma loop0_meets : meet loop0 loop0 loop0u loop0w.
Proof.
  assert (HQ : sqrt 3 * sqrt 3 = 3) by (apply sqrt_sqrt; lra). unfold loop0u, loop0w. set (q := sqrt 3) in *. split; unfold loop0; rewrite ?loop_X, ?loop_Y; replace (- (7 / 4) + (7 / 4 - - (7 / 4)) * (1 / 2 - q / (7 / 2))) with (- q) by field; replace (- (7 / 4) + (7 / 4 - - (7 / 4)) * (1 / 2 + q / (7 / 2))) with q by field; [|ring].
  replace ((- q) ^ 3) with (- (q * q * q)) by ring. replace (q ^ 3) with (q * q * q) by ring. rewrite HQ. ring.
Qed.
Lemma loop0_uncut fuel l : (103 < fuel)%nat -> reduce RTrig RBMath fuel loop0 = Ok l -> l <> [] /\ ~ isCut l loop0u /\ ~ isCut l loop0w.
Proof.
  intros Hf E. destruct (loop0_reduce fuel Hf) as (d1 & d2 & d3 & d4 & d5 & d6 & E'). rewrite E in E'. assert (G : forall A (x y : A), Ok x = Ok y -> x = y) by (intros A x y; congruence). apply G in E'. clear G E. subst l. split; [discriminate|].
  match goal with |- ~ isCut ?l _ /\ _ => assert (HR : forall s, In s l -> exists a b, st1 s = (Fin a : T RNum) /\ st2 s = (Fin b : T RNum) /\ rat a /\ rat b) end.
  { assert (R7 : forall a b, rat (IZR a / IZR (Zpos b))) by (intros a b; apply rat_div; discriminate).
    assert (R62 : rat (3 / 14 + 2 / 7 * (62 / 100))) by (apply rat_plus; [apply R7|apply rat_mult; apply R7]). assert (R68 : rat (1 / 2 + 2 / 7 * (68 / 100))) by (apply rat_plus; [apply R7|apply rat_mult; apply R7]).
    intros s [<-|[<-|[<-|[<-|[<-|[<-|[]]]]]]]; cbn [st1 st2]; do 2 eexists; (split; [reflexivity|]); (split; [reflexivity|]); split; try assumption; first [apply R7|apply rat_Z]. }
  split; intros C; apply (cut_rat _ _ HR) in C; apply root3_not_rat.
  - replace (sqrt 3) with ((7 / 2) * (1 / 2 + - loop0u)) by (unfold loop0u; field). apply rat_mult; [apply (rat_div 7 2); discriminate|]. apply rat_plus; [apply (rat_div 1 2); discriminate|]. apply rat_opp, C.
  - replace (sqrt 3) with ((7 / 2) * (loop0w + -1 / 2)) by (unfold loop0w; field). apply rat_mult; [apply (rat_div 7 2); discriminate|]. apply rat_plus; [exact C|apply (rat_div (-1) 2); discriminate].
Qed.
Lemma loop0_small : smallCrv loop0.
Proof. assert (B : 1000 < 2 ^ 63) by lra. unfold smallCrv, small, loop0, loopc, polX, polY. cbn [c_s c_cs c_e c_ce]. rewrite !pnt_X, !pnt_Y. repeat split; apply Rabs_def1; lra. Qed.

(** The loop is found, with the threshold that the code uses. *)
Example C90_found_ex : exists fuel l v, reduce RTrig RBMath fuel loop0 = Ok l /\ IntersectsSelf RTrig RBMath fuel loop0 (Fin (1 / 2) : T RNum) = Ok (Some v).
Proof.
  destruct (C90_ends RTrig loop0 (1 / 2) (loop_finite _ _ _ _) loop0_small ltac:(lra)) as (f & Hf). destruct (Hf (f + 104)%nat ltac:(lia)) as (r & E). destruct (reduce_ends RTrig RBMath (f + 104) loop0 ltac:(lia)) as (l & ER). destruct (loop0_uncut (f + 104) l ltac:(lia) ER) as (NE & C1 & C2). pose proof loop0_uw as (H1 & H2 & H3).
  assert (HN : r <> None) by (apply (C90_found RTrig (f + 104) loop0 (1 / 2) l r loop0u loop0w (loop_finite _ _ _ _) loop0_small (loop_bent 2 1 (7 / 4) ltac:(lra) ltac:(lra) ltac:(lra)) ER NE E H1 H2 H3 loop0_meets C1 C2)). destruct r as [v|]; [|congruence]. exists (f + 104)%nat, l, v. auto.
Qed.
(** The same curve meets the level line from (-1, 6) to (2, 6) in the point where it crosses itself. *)
Example C76_meeting_ex : exists fuel l, IntersectsCurve RTrig RBMath fuel loop0 (line3 (-1) 6 1 0) (Fin (1 / 2) : T RNum) = Ok l /\ found loop0 (line3 (-1) 6 1 0) (1 / 2) l loop0u (1 / 3).
Proof.
  assert (S2 : smallCrv (line3 (-1) 6 1 0)) by (apply small_line; apply Rabs_def1; lra). destruct (C76_ends RTrig loop0 (line3 (-1) 6 1 0) (1 / 2) (loop_finite _ _ _ _) loop0_small (line3_finite _ _ _ _) S2 ltac:(lra)) as (f & Hf). destruct (Hf (f + 104)%nat ltac:(lia)) as (l & E). exists (f + 104)%nat, l. split; [exact E|].
  destruct (reduce_ends RTrig RBMath (f + 104) loop0 ltac:(lia)) as (l1 & ER). destruct (loop0_uncut (f + 104) l1 ltac:(lia) ER) as (NE & C1 & C2). pose proof loop0_uw as (H1 & H2 & H3).
  assert (M : meet loop0 (line3 (-1) 6 1 0) loop0u (1 / 3)).
  { assert (HQ : sqrt 3 * sqrt 3 = 3) by (apply sqrt_sqrt; lra). unfold loop0u. set (q := sqrt 3) in *. split; unfold loop0; rewrite ?loop_X, ?loop_Y, ?line3_X, ?line3_Y; replace (- (7 / 4) + (7 / 4 - - (7 / 4)) * (1 / 2 - q / (7 / 2))) with (- q) by field; [replace ((- q) ^ 3) with (- (q * q * q)) by ring|replace ((- q) ^ 2) with (q * q) by ring]; rewrite HQ; lra. }
  apply (C76_meeting RTrig (f + 104) loop0 (line3 (-1) 6 1 0) (1 / 2) l1 [mkCseg (line3 (-1) 6 1 0) (Fin 0 : T RNum) (Fin 1 : T RNum)] l loop0u (1 / 3) (loop_finite _ _ _ _) loop0_small (line3_finite _ _ _ _) S2 ER); try assumption; try lra; [apply line3_reduce; [left; lra|lia]|discriminate|apply third_not_cut, third_not_dyadic|left; apply (loop_bent 2 1 (7 / 4)); lra].
Qed.
(** a narrow loop that is large: 150 high and a quarter wide *)
Example C90_narrow_ex : 0 < 1 / 2 /\ 2 * (1 / 2) <= 1 /\ 1000 * (1 / 2) <= 3 * 200. Proof. lra. Qed.
Print Assumptions C90_reported. Print Assumptions C90_found. Print Assumptions C90_ends. Print Assumptions C90_narrow_refuted. Print Assumptions C76_meeting.
Example C90_reported_ex : exists fuel v m n u w, IntersectsSelf RTrig RBMath fuel loop0 (Fin (1 / 2) : T RNum) = Ok (Some v) /\ v = (Fin (INR m / 100000) : T RNum, Fin (INR n / 100000) : T RNum) /\ rounded u m /\ rounded w n /\ apart loop0 loop0 u w < 1.
Proof.
  destruct C90_found_ex as (fuel & l & v & ER & E). destruct (C90_reported RTrig fuel loop0 (1 / 2) l v (loop_finite _ _ _ _) loop0_small ER E) as (m & n & u & w & Ev & _ & _ & Hu & Hw & A & _). exists fuel, v, m, n, u, w. repeat (split; [assumption|]). lra.
Qed.
