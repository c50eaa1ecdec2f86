(** C65: a lathe cuts its outline into layers of the thickness of the material. *)
From Coq Require Import List ZArith Bool Reals Lra Lia Sorting.Permutation Sorting.Sorted.
From Verif Require Import Num FloatNum RealNum RealTrig PathModel SegOps Bezier PathSpec GeomSpec BezierProofs RootsProofs GeomProofs LineGeom Witness Components CompProofs Prop_C37 Prop_C35 Prop_C63 Prop_C64.
Import ListNotations.
Local Open Scope R_scope.

Section Lathe.
Variables (co : CurveOps RNum) (dop prec : nat) (outline : path RNum) (top h : R).
(** the height of step [k] *)
Definition stepAt (k : nat) : R := top + INR k * h.
(** the cut at step [k]: between the first two intercepts, if they are told apart *)
Definition cutAt (k : nat) : list (Pt RNum * Pt RNum) :=
  match HorizontalIntercepts co (Z.of_nat dop) outline (Fin (stepAt k)) with
  | Ok (a :: b :: _) => if agree_dec prec (X b - X a) 0 then [] else [(a, b)]
  | _ => []
  end.
Definition widthOf (c : Pt RNum * Pt RNum) : R := X (snd c) - X (fst c).
(** the rendered layer of a cut: the component rendered between the two points, with its size *)
Definition layerOf (comp : Pt RNum -> Pt RNum -> Z -> res (path RNum)) (j : Z) (c : Pt RNum * Pt RNum) (part : path RNum * T RNum * T RNum) : Prop :=
  exists p tl br, comp (fst c) (snd c) j = Ok p /\ BoundingBoxTrimWhitespace co p = Ok (tl, br) /\ part = (p, sub (px br) (px tl), sub (py br) (py tl)).
Fixpoint layersOf comp (j : Z) (cs : list (Pt RNum * Pt RNum)) (parts : list (path RNum * T RNum * T RNum)) : Prop :=
  match cs, parts with
  | [], [] => True
  | c :: cs, part :: parts => layerOf comp j c part /\ layersOf comp (j + 1) cs parts
  | _, _ => False
  end.

Hypothesis HP : 0 < h.
Lemma stepAt_S k : stepAt (S k) = stepAt k + h.
Proof. unfold stepAt. rewrite S_INR. ring. Qed.
Lemma layers_spec comp bottom K :
  (forall k, stepAt k <= bottom <-> (k < K)%nat) ->
  (forall k, (k < K)%nat -> exists l, HorizontalIntercepts co (Z.of_nat dop) outline (Fin (stepAt k)) = Ok l /\ Forall finitePt l) ->
  (forall a b j, exists p tl br, comp a b j = Ok p /\ BoundingBoxTrimWhitespace co p = Ok (tl, br)) ->
  forall d k j fuel, (k + d = K)%nat -> (d < fuel)%nat ->
  exists ls, layers co (Z.of_nat dop) fuel (Z.of_nat prec) comp outline (Fin h) (Fin bottom) (Fin (stepAt k)) j = Ok ls /\
    let cs := flat_map cutAt (seq k d) in layersOf comp j cs (map fst ls) /\ map snd ls = map (fun c => Fin (widthOf c)) cs.
Proof.
  intros HK HI HC. induction d as [|d IH]; intros k j fuel Ek Ef; (destruct fuel as [|fuel]; [lia|]); cbn [layers].
  - exists []. fin. destruct (Rleb_spec (stepAt k) bottom) as [L|L]; [apply HK in L; lia|]. split; [reflexivity|]. split; [exact I|reflexivity].
  - fin. destruct (Rleb_spec (stepAt k) bottom) as [L|L]; [|exfalso; apply L, HK; lia]. cbn [negb].
    destruct (HI k) as (l & EL & FL); [lia|]. rewrite <- stepAt_S. cbn [seq flat_map]. unfold cutAt at 1 3. rewrite EL. cbn [bind].
    assert (SK : forall j, exists ls, layers co (Z.of_nat dop) fuel (Z.of_nat prec) comp outline (Fin h) (Fin bottom) (Fin (stepAt (S k))) j = Ok ls /\
      let cs := flat_map cutAt (seq (S k) d) in layersOf comp j cs (map fst ls) /\ map snd ls = map (fun c => Fin (widthOf c)) cs) by (intros j'; apply IH; lia).
    destruct l as [|a [|b l]]; [apply SK|apply SK|]. inversion FL as [|? ? Fa FL']; inversion FL' as [|? ? Fb _]; subst.
    rewrite (px_fin _ Fa), (px_fin _ Fb). fin. destruct (agree_dec prec (X b - X a) 0) as [A|A].
    + change (PrecisionEquals (Fin (X b - X a) : T RNum) (Fin 0) (Z.of_nat prec) = true) in A. rewrite A. apply SK.
    + destruct (PrecisionEquals (Fin (X b - X a) : T RNum) (Fin 0) (Z.of_nat prec)) eqn:EA; [exfalso; apply A; exact EA|].
      destruct (HC a b j) as (p & tl & br & EC & EB). rewrite EC. cbn [bind]. rewrite EB. cbn [bind]. destruct (SK (j + 1)%Z) as (ls & ELS & S1 & S2). rewrite ELS. cbn [bind].
      eexists. split; [reflexivity|]. cbn [app map fst snd layersOf]. split; [|rewrite S2; reflexivity]. split; [|exact S1]. exists p, tl, br. auto.
Qed.
Lemma total_sum {A} (ls : list A) x : fold_left (fun t _ => add t (Fin h : T RNum)) ls (Fin x : T RNum) = Fin (x + INR (length ls) * h).
Proof.
  revert x. induction ls as [|a ls IH]; intros x; [cbn; f_equal; ring|]. cbn [fold_left]. fin. rewrite IH. cbn [length]. rewrite S_INR. f_equal. ring.
Qed.
Lemma last_of (ls : list (path RNum * T RNum * T RNum * T RNum)) x : fold_left (fun _ pl => snd pl) ls x = last (map snd ls) x.
Proof.
  revert x. induction ls as [|a ls IH]; intros x; [reflexivity|]. cbn [fold_left]. rewrite IH. cbn [map last]. destruct (map snd ls) as [|b l]; [reflexivity|]. clear. revert b. induction l as [|c l IH]; intros b; [reflexivity|apply IH].
Qed.
Lemma steps_count bottom : exists K, forall k, stepAt k <= bottom <-> (k < K)%nat.
Proof.
  assert (B : exists K, bottom < stepAt K).
  { assert (UN : exists K, (bottom - top) / h < INR K).
    { exists (Z.to_nat (Z.max 0 (up ((bottom - top) / h)))). rewrite INR_IZR_INZ, Z2Nat.id by lia. pose proof (archimed ((bottom - top) / h)) as [U _].
      assert (IZR (up ((bottom - top) / h)) <= IZR (Z.max 0 (up ((bottom - top) / h)))) by (apply IZR_le; lia). lra. }
    destruct UN as (K & HK). exists K. unfold stepAt. apply (Rmult_lt_compat_r h) in HK; [|lra]. unfold Rdiv in HK. rewrite Rmult_assoc, Rinv_l, Rmult_1_r in HK; lra. }
  destruct B as (K & B). assert (MONO : forall i j, (i <= j)%nat -> stepAt i <= stepAt j) by (intros i j L; unfold stepAt; apply Rplus_le_compat_l, Rmult_le_compat_r; [lra|apply le_INR; exact L]).
  induction K as [|K IH].
  - exists 0%nat. intros k. split; [|lia]. intros L. pose proof (MONO 0%nat k (Nat.le_0_l k)). lra.
  - destruct (Rle_dec (stepAt K) bottom) as [L|L]; [|apply IH; lra]. exists (S K). intros k. split.
    + intros Lk. apply Nat.nle_gt. intros G. pose proof (MONO _ _ G). lra.
    + intros G. pose proof (MONO k K ltac:(lia)). lra.
Qed.
End Lathe.

(** There is one layer for each step (at distances of the thickness, from the top padding down to the bottom padding) that has two intercepts
    apart from each other; it is the component rendered between the first two, with the number of the layer and its size; total_height is
    the sum of the thicknesses, num_layers the number of layers, top_width and bottom_width the lengths of the first and the last. *)
Theorem C65_layers co dop prec comp (outline : path RNum) (l t r b h padTop padBottom : R) : 0 < h ->
  BoundingBoxWithWhitespace co outline = Ok (pnt l t, pnt r b) ->
  (forall k, stepAt (t + padTop) h k <= b - padBottom -> exists l, HorizontalIntercepts co (Z.of_nat dop) outline (Fin (stepAt (t + padTop) h k)) = Ok l /\ Forall finitePt l) ->
  (forall a b j, exists p tl br, comp a b j = Ok p /\ BoundingBoxTrimWhitespace co p = Ok (tl, br)) ->
  exists K, (forall k, stepAt (t + padTop) h k <= b - padBottom <-> (k < K)%nat) /\
  let cs := flat_map (cutAt co dop prec outline (t + padTop) h) (seq 0 K) in
  forall fuel, (K < fuel)%nat -> exists parts,
    Lathe co (Z.of_nat dop) fuel (Z.of_nat prec) comp outline (Fin h) (Fin padTop) (Fin padBottom) =
      Ok (parts, Fin (INR (length cs) * h), Fin (hd 0 (map widthOf cs)), Fin (last (map widthOf cs) 0), Z.of_nat (length cs)) /\
    layersOf co comp 0 cs parts.
Proof.
  intros HP EB HI HC. destruct (steps_count (t + padTop) h HP (b - padBottom)) as (K & HK). exists K. split; [exact HK|]. cbv zeta. intros fuel HF.
  destruct (layers_spec co dop prec outline (t + padTop) h comp (b - padBottom) K HK (fun k L => HI k (proj2 (HK k) L)) HC K 0%nat 0%Z fuel eq_refl HF) as (ls & E & S1 & S2).
  set (cs := flat_map _ _) in *. exists (map fst ls). split; [|exact S1]. unfold Lathe. rewrite EB. cbn [bind px py pnt]. fin. destruct (Rleb_spec h 0); [lra|].
  assert (E0 : stepAt (t + padTop) h 0 = t + padTop) by (unfold stepAt; cbn; ring). rewrite E0 in E. rewrite E. cbn [bind].
  assert (LEN : length ls = length cs) by (rewrite <- (map_length snd ls), S2, map_length; reflexivity).
  assert (ET : match ls with [] => @zero RNum | (_, l) :: _ => l end = Fin (hd 0 (map widthOf cs))).
  { destruct ls as [|[q w] ls], cs as [|c cs]; try discriminate; [reflexivity|]. cbn in S2 |- *. injection S2 as -> _. reflexivity. }
  assert (EL : last (map (fun c => Fin (widthOf c)) cs) (@zero RNum) = Fin (last (map widthOf cs) 0)).
  { clear. induction cs as [|c [|c' cs] IH]; [reflexivity|reflexivity|]. cbn [map last] in *. exact IH. }
  rewrite last_of, S2. change (@zero RNum) with (Fin 0 : T RNum) in *. rewrite total_sum, LEN, ET.
  match goal with |- context [@last (T RNum) ?m ?z] => replace (@last (T RNum) m z) with (Fin (last (map widthOf cs) 0) : T RNum) by (symmetry; exact EL) end. replace (0 + INR (length cs) * h) with (INR (length cs) * h) by ring. reflexivity.
Qed.
Print Assumptions C65_layers.

(** A silhouette of straight lines, with one left and one right crossing at every step, none of them at a corner: every step is a layer, cut
    from the left crossing to the right one. *)
Theorem C65_silhouette_partial bf n prec comp (outline : path RNum) (l t r b h padTop padBottom : R) (left right : nat -> R) : 0 < h ->
  Forall tame outline -> (forall x y, inDrawing outline x y -> 0 <= x /\ 0 <= y) -> (exists x y, inDrawing outline x y /\ / 10 ^ n < x) ->
  BoundingBoxWithWhitespace (BezierOps RTrig RBMath bf) outline = Ok (pnt l t, pnt r b) ->
  (forall k, stepAt (t + padTop) h k <= b - padBottom -> let y := stepAt (t + padTop) h k in
    Forall (clearSeg n y) outline /\ Forall (offVertex n y) outline /\ Permutation (flat_map (crossing y) outline) [pnt (left k) y; pnt (right k) y] /\ left k + / 10 ^ prec < right k) ->
  (forall a b j, exists p, comp a b j = Ok p /\ Forall tame p) ->
  exists K, (forall k, stepAt (t + padTop) h k <= b - padBottom <-> (k < K)%nat) /\
  forall fuel, (K < fuel)%nat -> exists parts top bottom,
    Lathe (BezierOps RTrig RBMath bf) (Z.of_nat n) fuel (Z.of_nat prec) comp outline (Fin h) (Fin padTop) (Fin padBottom) = Ok (parts, Fin (INR K * h), Fin top, Fin bottom, Z.of_nat K) /\
    layersOf (BezierOps RTrig RBMath bf) comp 0 (map (fun k => (pnt (left k) (stepAt (t + padTop) h k), pnt (right k) (stepAt (t + padTop) h k))) (seq 0 K)) parts /\
    ((0 < K)%nat -> top = right 0%nat - left 0%nat /\ bottom = right (K - 1)%nat - left (K - 1)%nat).
Proof.
  intros HP HT H0 HX EB HS HC. set (co := BezierOps RTrig RBMath bf) in *.
  assert (HI : forall k, stepAt (t + padTop) h k <= b - padBottom -> HorizontalIntercepts co (Z.of_nat n) outline (Fin (stepAt (t + padTop) h k)) = Ok [pnt (left k) (stepAt (t + padTop) h k); pnt (right k) (stepAt (t + padTop) h k)]).
  { intros k L. destruct (HS k L) as (C & V & P & W). destruct (C64_crossings bf n outline _ HT H0 HX C V) as (pts & E & S & Q). fold co in E. rewrite E. f_equal.
    rewrite P in Q. assert (D : 0 < / 10 ^ prec) by (apply Rinv_0_lt_compat, pow_lt; lra). apply Permutation_sym, Permutation_length_2_inv in Q. destruct Q as [->| ->]; [reflexivity|]. exfalso. inversion S as [|? ? _ F]; subst. inversion F as [|? ? L' _]; subst. rewrite !pnt_X in L'. lra. }
  destruct (C65_layers co n prec comp outline l t r b h padTop padBottom HP EB) as (K & HK & HL).
  { intros k L. eexists. split; [apply HI; exact L|]. repeat constructor. }
  { intros a c j. destruct (HC a c j) as (p & E & T). destruct (trimBox co (BezierOps_boxOk RTrig RBMath bf) p T) as (tl & br & EB'). exists p, tl, br. auto. }
  exists K. split; [exact HK|]. intros fuel HF.
  assert (EC : forall k, stepAt (t + padTop) h k <= b - padBottom -> cutAt co n prec outline (t + padTop) h k = [(pnt (left k) (stepAt (t + padTop) h k), pnt (right k) (stepAt (t + padTop) h k))]).
  { intros k L. unfold cutAt. rewrite HI by exact L. rewrite !pnt_X. destruct (HS k L) as (_ & _ & _ & W). destruct (agree_dec prec (right k - left k) 0) as [A|A]; [|reflexivity].
    apply agree_close in A. rewrite Rminus_0_r in A. pose proof (Rle_abs (right k - left k)). lra. }
  assert (EF : flat_map (cutAt co n prec outline (t + padTop) h) (seq 0 K) = map (fun k => (pnt (left k) (stepAt (t + padTop) h k), pnt (right k) (stepAt (t + padTop) h k))) (seq 0 K)).
  { assert (G : forall ks, (forall k, In k ks -> (k < K)%nat) -> flat_map (cutAt co n prec outline (t + padTop) h) ks = map (fun k => (pnt (left k) (stepAt (t + padTop) h k), pnt (right k) (stepAt (t + padTop) h k))) ks).
    { induction ks as [|k ks IH]; intros B; [reflexivity|]. cbn [flat_map map]. rewrite EC by (apply HK, B; left; reflexivity). rewrite IH by (intros; apply B; right; auto). reflexivity. }
    apply G. intros k I. apply in_seq in I. lia. }
  destruct (HL fuel HF) as (parts & E & LO). rewrite EF in E, LO. rewrite map_length, seq_length in E. eexists parts, _, _. split; [exact E|]. split; [exact LO|].
  intros KP. destruct K as [|K]; [lia|]. replace (S K - 1)%nat with K by lia. split.
  - cbn [seq map hd]. unfold widthOf. cbn [fst snd]. rewrite !pnt_X. reflexivity.
  - rewrite seq_S, !map_app. cbn [map Nat.add]. rewrite last_last. unfold widthOf. cbn [fst snd]. rewrite !pnt_X. reflexivity.
Qed.
Print Assumptions C65_silhouette_partial.

(** *** findings, in float64 *)
Definition plate (a b : Pt FNum) (j : Z) : res (path FNum) := Ok [Move (pt 0 0) a; Line a b].
Definition numbers (r : res (list (path FNum * T FNum * T FNum) * T FNum * T FNum * T FNum * Z)) : list (T FNum) :=
  match r with Ok (parts, total, top, bottom, n) => [total; top; bottom; ofZ n] | _ => [] end.
(** two drawings of the same rectangle, 2 wide and 4 high, for a thickness of 2.  With plain sides there are three layers; if the sides are
    drawn in two pieces joined at the height 2 the middle layer is lost. *)
Theorem C65_corner_refuted :
  numbers (Lathe noCurves 3 9 3 plate [mv 0 0 1 0; ln 1 0 3 0; ln 3 0 3 4; ln 3 4 1 4; ln 1 4 1 0] (fz 2) (fz 0) (fz 0)) = [fz 6; fz 2; fz 2; fz 3] /\
  numbers (Lathe noCurves 3 9 3 plate [mv 0 0 1 0; ln 1 0 3 0; ln 3 0 3 2; ln 3 2 3 4; ln 3 4 1 4; ln 1 4 1 2; ln 1 2 1 0] (fz 2) (fz 0) (fz 0)) = [fz 4; fz 2; fz 2; fz 2].
Proof. split; vm_compute; reflexivity. Qed.
(** the same rectangle moved down by 1: the steps start at the top of the page, not of the outline, so it has two layers *)
Theorem C65_top_refuted :
  numbers (Lathe noCurves 3 9 3 plate [mv 0 0 1 1; ln 1 1 3 1; ln 3 1 3 5; ln 3 5 1 5; ln 1 5 1 1] (fz 2) (fz 0) (fz 0)) = [fz 4; fz 2; fz 2; fz 2].
Proof. vm_compute. reflexivity. Qed.
(** an outline 8 wide with a notch from above: at the height 1 the layer is 3 wide, up to the notch only *)
Theorem C65_notch_refuted :
  numbers (Lathe noCurves 3 9 3 plate [mv 0 0 1 0; ln 1 0 9 0; ln 9 0 9 4; ln 9 4 5 0; ln 5 0 1 4; ln 1 4 1 0] (fz 9) (fz 1) (fz 0)) = [fz 9; fz 3; fz 3; fz 1].
Proof. vm_compute. reflexivity. Qed.

(** *** example: a trapezoid cut into four layers *)
Definition trapezoid : path RNum := [Move (pnt 0 0) (pnt 0 0); Line (pnt 0 0) (pnt 10 0); Line (pnt 10 0) (pnt 8 4); Line (pnt 8 4) (pnt 2 4); Line (pnt 2 4) (pnt 0 0)].
Lemma trapezoid_tame : Forall tame trapezoid.
Proof. repeat constructor. Qed.
Lemma trapezoid_box bf : exists l r b, BoundingBoxWithWhitespace (BezierOps RTrig RBMath bf) trapezoid = Ok (pnt l 0, pnt r b) /\ b = 4.
Proof.
  destruct (BoundingBoxWithWhitespace_spec _ (BezierOps_boxOk RTrig RBMath bf) _ _ trapezoid_tame) as (tl & br & (_ & _ & _ & (B1 & B2 & (x & B3))) & E). unfold trapezoid. rewrite E. eexists _, _, _. split.
    - cbn [sstart send last]. rewrite !pnt_X, !pnt_Y. rewrite (Rmin_left 0 0) by lra. reflexivity.
    - assert (U : Y br <= 4).
      { destruct B3 as [B3|(g & Hg & V & B3)].
        - destruct B3 as (u & Hu & _ & EY). rewrite !pnt_Y in EY. lra.
        - cbn [In] in Hg. repeat destruct Hg as [<-|Hg]; try contradiction; destruct B3 as (u & Hu & _ & EY); rewrite !pnt_Y in EY; lra. }
      assert (L : 4 <= Y br). { apply B1. exists 8. right. exists (Line (pnt 8 4) (pnt 2 4)). split; [cbn; tauto|]. split; [exact I|]. exists 0. rewrite !pnt_X, !pnt_Y. lra. }
      unfold Rmax. destruct (Rle_dec _ _); lra.
Qed.
Lemma trapezoid_inside x y : inDrawing trapezoid x y -> 0 <= x /\ 0 <= y.
Proof. intros (g & Hg & V & (u & Hu & O)). cbn [In trapezoid] in Hg. repeat destruct Hg as [<-|Hg]; cbn in V; try contradiction; rewrite ?pnt_X, ?pnt_Y in O; nra. Qed.
Lemma trapezoid_wide : exists x y, inDrawing trapezoid x y /\ / 10 ^ 3 < x.
Proof. exists 10, 0. split; [|lra]. exists (Line (pnt 0 0) (pnt 10 0)). split; [right; left; reflexivity|]. split; [exact I|]. exists 1. rewrite !pnt_X, !pnt_Y. lra. Qed.
Lemma trapezoid_clear y : Forall (clearSeg 3 y) trapezoid.
Proof.
  unfold trapezoid. repeat apply Forall_cons; try apply Forall_nil; cbn [clearSeg]; unfold clearLine; rewrite ?pnt_X, ?pnt_Y; try exact I; right; (split; [absl|]); try (left; reflexivity); right.
  - replace ((4 - 0) / (8 - 10)) with (-2) by field. absl.
  - replace ((0 - 4) / (0 - 2)) with 2 by field. absl.
Qed.
Lemma trapezoid_crossings y : 1 / 2 <= y <= 7 / 2 -> Forall (offVertex 3 y) trapezoid /\ Permutation (flat_map (crossing y) trapezoid) [pnt (y / 2) y; pnt (10 - y / 2) y].
Proof.
  intros YR. split.
  - unfold trapezoid. repeat apply Forall_cons; try apply Forall_nil; cbn [offVertex]; rewrite ?pnt_Y; try exact I; split; absl.
  - unfold trapezoid. cbn [flat_map crossing]. rewrite !pnt_X, !pnt_Y.
    destruct (Rlt_dec ((0 - y) * (0 - y)) 0); [exfalso; nra|]. destruct (Rlt_dec ((0 - y) * (4 - y)) 0); [|exfalso; nra]. destruct (Rlt_dec ((4 - y) * (4 - y)) 0); [exfalso; nra|]. destruct (Rlt_dec ((4 - y) * (0 - y)) 0); [|exfalso; nra].
    cbn [app]. replace (10 + (y - 0) / (4 - 0) * (8 - 10)) with (10 - y / 2) by field. replace (2 + (y - 4) / (0 - 4) * (0 - 2)) with (y / 2) by field. apply perm_swap.
Qed.
Lemma four_steps k : stepAt (0 + 1 / 2) 1 k <= 4 - 0 -> (k < 4)%nat.
Proof. unfold stepAt. intros L. apply INR_lt. cbn. lra. Qed.
Example C65_example bf : exists parts,
  Lathe (BezierOps RTrig RBMath bf) 3 9 3 (fun a b j => Ok [Move (pnt 0 0) (pnt 0 0); Line (pnt 0 0) (pnt (X b - X a) 0)]) trapezoid (Fin 1) (Fin (1 / 2)) (Fin 0) = Ok (parts, Fin 4, Fin (19 / 2), Fin (13 / 2), 4%Z) /\ length parts = 4%nat.
Proof.
  destruct (trapezoid_box bf) as (l & r & b & EB & ->).
  destruct (C65_silhouette_partial bf 3 3 (fun a b j => Ok [Move (pnt 0 0) (pnt 0 0); Line (pnt 0 0) (pnt (X b - X a) 0)]) trapezoid l 0 r 4 1 (1 / 2) 0 (fun k => (1 / 2 + INR k) / 2) (fun k => 10 - (1 / 2 + INR k) / 2)) as (K & HK & HL).
  - lra.
  - exact trapezoid_tame.
  - exact trapezoid_inside.
  - exact trapezoid_wide.
  - exact EB.
  - intros k L y. assert (KB := four_steps k L). assert (YB : y = 1 / 2 + INR k) by (unfold y, stepAt; ring). assert (IK : 0 <= INR k <= 3) by (split; [apply pos_INR|replace 3 with (INR 3) by (cbn; lra); apply le_INR; lia]).
    split; [apply trapezoid_clear|]. rewrite <- YB. destruct (trapezoid_crossings y) as [V P]; [lra|]. split; [exact V|]. split; [exact P|]. lra.
  - intros a c j. eexists. split; [reflexivity|]. repeat constructor.
  - assert (K4 : K = 4%nat).
    { assert (3 < K)%nat by (apply HK; unfold stepAt; cbn; lra). assert (~ (4 < K)%nat) by (intros Z; apply HK in Z; unfold stepAt in Z; cbn in Z; lra). lia. } subst K.
    destruct (HL 9%nat ltac:(lia)) as (parts & top & bottom & E & LO & W). destruct (W ltac:(lia)) as [-> ->]. exists parts. split.
    + change 3%Z with (Z.of_nat 3). rewrite E.
      replace (INR 4 * 1) with 4 by (cbn; lra). replace (10 - (1 / 2 + INR 0) / 2 - (1 / 2 + INR 0) / 2) with (19 / 2) by (cbn; lra).
      replace (10 - (1 / 2 + INR (4 - 1)) / 2 - (1 / 2 + INR (4 - 1)) / 2) with (13 / 2) by (cbn; lra). reflexivity.
    + clear - LO. cbn [seq map] in LO. do 4 (destruct parts as [|? parts]; [cbn in LO; tauto|]). destruct parts; [reflexivity|cbn in LO; tauto].
Qed.
