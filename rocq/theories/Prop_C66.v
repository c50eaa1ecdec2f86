(** C66: filling an outline with rows of a component (xintercept). *)
From Coq Require Import List ZArith Bool Reals Lra Lia Sorting.Permutation Sorting.Sorted.
From Verif Require Import Num FloatNum RealNum RealTrig PathModel DrawModel SegOps TransformsModel Bezier PathSpec PathProofs GeomSpec BezierProofs RootsProofs GeomProofs LineGeom Witness Components CompProofs Prop_C35 Prop_C64 Prop_C65.
Import ListNotations.
Local Open Scope R_scope.

(** the intercepts taken two at a time *)
Fixpoint twos {A} (l : list A) : list (A * A) := match l with a :: b :: r => (a, b) :: twos r | _ => [] end.
Lemma twos_ind {A} (P : list A -> Prop) : P [] -> (forall a, P [a]) -> (forall a b l, P l -> P (a :: b :: l)) -> forall l, P l.
Proof. intros H0 H1 H2 l. assert (G : P l /\ forall a, P (a :: l)) by (induction l as [|b l [IH1 IH2]]; auto). apply G. Qed.
Lemma twos_in {A} (l : list A) c : In c (twos l) -> In (fst c) l /\ In (snd c) l.
Proof. induction l as [|a|a b l IH] using twos_ind; cbn; try tauto. intros [<-|H]; [cbn; tauto|]. apply IH in H. tauto. Qed.

Section Rows.
Variables (co : CurveOps RNum) (dop prec : nat) (outline : path RNum) (top step : R) (draw : Pt RNum -> Pt RNum -> path RNum) (spacing height : R).
Hypothesis HS : step = height + spacing.
(** the stretches of a row that lie inside the outline and have a length *)
Definition apart (c : Pt RNum * Pt RNum) : bool := if agree_dec prec (X (snd c) - X (fst c)) 0 then false else true.
Definition stretches (k : nat) : list (Pt RNum * Pt RNum) :=
  match HorizontalIntercepts co (Z.of_nat dop) outline (Fin (stepAt top step k)) with Ok l => filter apart (twos l) | _ => [] end.
Definition drawAt (c : Pt RNum * Pt RNum) : path RNum := draw (fst c) (snd c).
(** everything drawn has the same height *)
Definition tall (p : path RNum) : Prop := exists tl br, BoundingBoxTrimWhitespace co p = Ok (tl, br) /\ finitePt tl /\ finitePt br /\ Y br - Y tl = height.
(** the intercepts at the height [y] *)
Definition levelAt (y : R) (q : Pt RNum) : Prop := finitePt q /\ Y q = y.
Hypothesis HD : forall y a b, levelAt y a -> levelAt y b -> tall (draw a b).

Lemma apart_precision a b : PrecisionEquals (Fin (X b - X a) : T RNum) (Fin 0) (Z.of_nat prec) = negb (apart (a, b)).
Proof.
  unfold apart. cbn [fst snd]. destruct (agree_dec prec (X b - X a) 0) as [A|A]; cbn [negb]; [exact A|].
  destruct (PrecisionEquals _ _ _) eqn:EA; [exfalso; apply A; exact EA|reflexivity].
Qed.
Lemma pieces_spec y l : Forall (levelAt y) l -> forall h, pieces co (Z.of_nat prec) (fun a b => Ok (draw a b)) l h =
  Ok (map drawAt (filter apart (twos l)), match filter apart (twos l) with [] => h | _ => Fin height end).
Proof.
  induction l as [|a|a b l IH] using twos_ind; intros F h; [reflexivity|reflexivity|]. inversion F as [|? ? Fa F']; inversion F' as [|? ? Fb F'']; subst. cbn [pieces twos filter].
  rewrite (px_fin _ (proj1 Fa)), (px_fin _ (proj1 Fb)). fin. rewrite apart_precision. destruct (apart (a, b)); cbn [negb bind]; [|apply IH; exact F''].
    destruct (HD y a b Fa Fb) as (tl & br & E & F1 & F2 & EH). rewrite E. cbn [bind]. rewrite (py_fin _ F1), (py_fin _ F2). fin. rewrite EH, IH by exact F''. cbn [bind map]. destruct (filter apart (twos l)); reflexivity.
Qed.
Lemma rows_spec bottom K :
  (forall k, stepAt top step k <= bottom <-> (k < K)%nat) ->
  (forall k, (k < K)%nat -> exists l, HorizontalIntercepts co (Z.of_nat dop) outline (Fin (stepAt top step k)) = Ok l /\ Forall (levelAt (stepAt top step k)) l) ->
  (forall k, (k < K)%nat -> stretches k <> []) ->
  forall d k h fuel, (k + d = K)%nat -> (d < fuel)%nat ->
  rows co (Z.of_nat dop) fuel (Z.of_nat prec) (fun a b => Ok (draw a b)) outline (Fin spacing) (Fin bottom) (Fin (stepAt top step k)) h = Ok (map drawAt (flat_map stretches (seq k d))).
Proof.
  intros HK HI HN. induction d as [|d IH]; intros k h fuel Ek Ef; (destruct fuel as [|fuel]; [lia|]); cbn [rows]; fin.
  - destruct (Rleb_spec (stepAt top step k) bottom) as [L|L]; [apply HK in L; lia|]. reflexivity.
  - destruct (Rleb_spec (stepAt top step k) bottom) as [L|L]; [|exfalso; apply L, HK; lia]. cbn [negb].
    destruct (HI k) as (l & EL & FL); [lia|]. rewrite EL. cbn [bind]. rewrite (pieces_spec _ _ FL). cbn [bind].
    assert (ES : stretches k = filter apart (twos l)) by (unfold stretches; rewrite EL; reflexivity). pose proof (HN k ltac:(lia)) as NE. rewrite <- ES in *.
    destruct (stretches k) as [|c cs] eqn:EK; [congruence|]. fin. replace (stepAt top step k + height + spacing) with (stepAt top step (S k)) by (rewrite stepAt_S; lra).
    rewrite IH by lia. cbn [bind]. cbn [seq flat_map]. rewrite EK, map_app. reflexivity.
Qed.
End Rows.

(** If everything the component draws has the same height, the rows are at equal distances: the component's height and the spacing.  In every
    row the component is rendered between the first and the second intercept, the third and the fourth, and so on, as long as these are apart;
    and the result draws exactly these, row by row.
    Full claim: the same for components of any height, with the distance between two rows being the height of the first and the spacing, and
    errors are reported.  Missing: different heights, and errors, which are not reported ([C66_error_refuted]). *)
Theorem C66_rows_partial co dop prec (outline : path RNum) draw (l t r b spacing height start : R) : 0 < height + spacing -> spacing <> 0 ->
  BoundingBoxWithWhitespace co outline = Ok (pnt l t, pnt r b) -> t + start <= b ->
  (forall y a c, levelAt y a -> levelAt y c -> draw a c <> [] /\ Forall tame (draw a c) /\ tall co height (draw a c)) ->
  (forall k, stepAt (t + start) (height + spacing) k <= b -> (exists l, HorizontalIntercepts co (Z.of_nat dop) outline (Fin (stepAt (t + start) (height + spacing) k)) = Ok l /\ Forall (levelAt (stepAt (t + start) (height + spacing) k)) l) /\ 
    stretches co dop prec outline (t + start) (height + spacing) k <> []) ->
  exists K, (forall k, stepAt (t + start) (height + spacing) k <= b <-> (k < K)%nat) /\
  forall fuel, (K < fuel)%nat -> exists q c,
    XIntercept co (Z.of_nat dop) fuel (Z.of_nat prec) [] (Ok outline) (fun a b => Ok (draw a b)) (Fin start) (Fin spacing) = Ok (Some (q, c)) /\ ends q c /\
    drawn q = flat_map (fun k => flat_map (fun c => drawn (draw (fst c) (snd c))) (stretches co dop prec outline (t + start) (height + spacing) k)) (seq 0 K).
Proof.
  intros HP HZ EB HT HD HI. destruct (steps_count (t + start) (height + spacing) HP b) as (K & HK). exists K. split; [exact HK|]. intros fuel HF.
  assert (R : rows co (Z.of_nat dop) fuel (Z.of_nat prec) (fun a b => Ok (draw a b)) outline (Fin spacing) (Fin b) (Fin (stepAt (t + start) (height + spacing) 0)) zero = Ok (map (drawAt draw) (flat_map (stretches co dop prec outline (t + start) (height + spacing)) (seq 0 K)))).
  { apply (rows_spec co dop prec outline (t + start) (height + spacing) draw spacing height eq_refl (fun y a b A B => proj2 (proj2 (HD y a b A B))) b K HK); [| |reflexivity|exact HF].
    - intros k L. apply HI, HK, L.
    - intros k L. apply HI, HK, L. }
  assert (E0 : stepAt (t + start) (height + spacing) 0 = t + start) by (unfold stepAt; cbn; ring). rewrite E0 in R.
  assert (KP : (0 < K)%nat) by (apply HK; rewrite E0; exact HT).
  assert (NE : flat_map (stretches co dop prec outline (t + start) (height + spacing)) (seq 0 K) <> []).
  { destruct K as [|K]; [lia|]. cbn [seq flat_map]. pose proof (proj2 (HI 0%nat ltac:(rewrite E0; exact HT))) as N. destruct (stretches co dop prec outline (t + start) (height + spacing) 0); [congruence|discriminate]. }
  assert (ED : flat_map (fun k => flat_map (fun c => drawn (draw (fst c) (snd c))) (stretches co dop prec outline (t + start) (height + spacing) k)) (seq 0 K) = concat (map drawn (map (drawAt draw) (flat_map (stretches co dop prec outline (t + start) (height + spacing)) (seq 0 K))))).
  { clear. induction (seq 0 K) as [|k ks IH]; [reflexivity|]. cbn [flat_map]. rewrite !map_app, concat_app, IH. f_equal. rewrite map_map, <- flat_map_concat_map. reflexivity. }
  rewrite ED. remember (map (drawAt draw) (flat_map (stretches co dop prec outline (t + start) (height + spacing)) (seq 0 K))) as pl eqn:EP. destruct pl as [|p ps]; [exfalso; apply NE; symmetry in EP; apply map_eq_nil in EP; exact EP|].
  assert (A : Forall (fun q => q <> [] /\ Forall tame q) (p :: ps)) by (rewrite EP; apply Forall_forall; intros q Hq; apply in_map_iff in Hq; destruct Hq as (c & <- & Hc); apply in_flat_map in Hc; destruct Hc as (k & Hk & Hc); apply in_seq in Hk; assert (Lk : stepAt (t + start) (height + spacing) k <= b) by (apply HK; lia); destruct (proj1 (HI k Lk)) as (pts & E1 & E2); unfold stretches in Hc; rewrite E1 in Hc; apply filter_In in Hc; destruct Hc as [Hc _]; destruct (twos_in _ _ Hc) as [I1 I2]; rewrite Forall_forall in E2; split; apply (HD _ _ _ (E2 _ I1) (E2 _ I2))).
  destruct (JoinPaths_spec p ps) as (q & EJ & DJ & TJ & (u & Eu) & _); [eapply Forall_impl; [|exact A]; cbv beta; tauto|eapply Forall_impl; [|exact A]; cbv beta; tauto|].
  assert (NQ : q <> []) by (inversion A as [|? ? [Np _] _]; subst; destruct p; [congruence|discriminate]). destruct (snoc_of q NQ) as (i & z & Ez).
  exists q, (send z). split; [|split; [exists i, z; auto|exact DJ]].
  unfold XIntercept. fin. destruct (Reqb_spec spacing 0); [congruence|]. cbn [bind]. rewrite EB. cbn [bind px py pnt]. fin. change (@zero RNum) with (Fin 0 : T RNum) in R. rewrite R. cbn [bind]. rewrite EJ. cbn [bind]. unfold HandleTransforms. cbn [applyTransforms bind].
  unfold PathCursor. rewrite Ez, Tail_snoc. reflexivity.
Qed.
Print Assumptions C66_rows_partial.

(** *** components of different heights *)
(** the height of a drawing: of the band its strokes fill *)
Definition heightIs (p : path RNum) (h : R) : Prop :=
  exists lo hi, (forall x y, inDrawing p x y -> lo <= y <= hi) /\ (exists x, inDrawing p x lo) /\ (exists x, inDrawing p x hi) /\ hi - lo = h.
Lemma heightIs_box bf p : Forall tame p -> drawn p <> [] -> exists tl br, BoundingBoxTrimWhitespace (BezierOps RTrig RBMath bf) p = Ok (tl, br) /\ finitePt tl /\ finitePt br /\ 0 <= Y br - Y tl /\ heightIs p (Y br - Y tl).
Proof.
  intros TP DP. destruct (BoundingBoxTrimWhitespace_tight _ (BezierOps_boxOk RTrig RBMath bf) p TP DP) as (tl & br & E & F1 & F2 & _ & (B2 & L2 & R2)).
  exists tl, br. split; [exact E|]. split; [exact F1|]. split; [exact F2|]. destruct L2 as [x1 O1]. split; [pose proof (B2 (Y tl) (ex_intro _ x1 O1)); lra|]. exists (Y tl), (Y br). split; [intros x y O; apply B2; exists x; exact O|]. split; [exists x1; exact O1|]. split; [exact R2|reflexivity].
Qed.
Section Any.
Variables (bf dop prec : nat) (outline : path RNum) (draw : Pt RNum -> Pt RNum -> path RNum) (spacing bottom : R).
Let co := BezierOps RTrig RBMath bf.
(** [rs] are the rows from [y] on: the stretches of every row, until the bottom is passed.  A row is the height of the last stretch drawn and the spacing below the one before *)
Inductive laid : R -> R -> list (list (Pt RNum * Pt RNum)) -> Prop :=
| laid_end y h : bottom < y -> laid y h []
| laid_row y h l h' rs : y <= bottom -> HorizontalIntercepts co (Z.of_nat dop) outline (Fin y) = Ok l ->
    (filter (apart prec) (twos l) = [] -> h' = h) -> (forall cs c, filter (apart prec) (twos l) = cs ++ [c] -> heightIs (draw (fst c) (snd c)) h') ->
    laid (y + h' + spacing) h' rs -> laid y h (filter (apart prec) (twos l) :: rs).
Hypothesis HD : forall y a c, levelAt y a -> levelAt y c -> Forall tame (draw a c) /\ drawn (draw a c) <> [].
Lemma pieces_any y l : Forall (levelAt y) l -> forall h, 0 <= h -> exists h', 0 <= h' /\
  pieces co (Z.of_nat prec) (fun a b => Ok (draw a b)) l (Fin h) = Ok (map (fun c => draw (fst c) (snd c)) (filter (apart prec) (twos l)), Fin h') /\
  (filter (apart prec) (twos l) = [] -> h' = h) /\ (forall cs c, filter (apart prec) (twos l) = cs ++ [c] -> heightIs (draw (fst c) (snd c)) h').
Proof.
  induction l as [|a|a b l IH] using twos_ind; intros F h Hh.
  1,2: exists h; split; [exact Hh|split; [reflexivity|split; [reflexivity|intros cs c E; destruct cs; discriminate E]]].
  inversion F as [|? ? Fa F']; inversion F' as [|? ? Fb F'']; subst. cbn [pieces twos filter].
  rewrite (px_fin _ (proj1 Fa)), (px_fin _ (proj1 Fb)). fin. rewrite apart_precision. destruct (apart prec (a, b)); cbn [negb bind]; [|apply IH; assumption].
  destruct (HD y a b Fa Fb) as [TD DD]. destruct (heightIs_box bf _ TD DD) as (tl & br & E & F1 & F2 & H1 & EH). fold co in E. rewrite E. cbn [bind]. rewrite (py_fin _ F1), (py_fin _ F2). fin.
  destruct (IH F'' _ H1) as (h' & H' & -> & N1 & N2). exists h'. split; [exact H'|]. split; [reflexivity|]. split; [discriminate|]. intros cs c EC.
  destruct cs as [|c0 cs]; cbn [app] in EC; injection EC as E1 E2.
  - subst c. rewrite (N1 E2). exact EH.
  - apply (N2 cs c E2).
Qed.
Lemma rows_any : 0 < spacing -> (forall y, y <= bottom -> exists l, HorizontalIntercepts co (Z.of_nat dop) outline (Fin y) = Ok l /\ Forall (levelAt y) l) ->
  forall n y h, 0 <= h -> bottom - y < INR n * spacing -> exists rs, laid y h rs /\ forall fuel, (n < fuel)%nat ->
    rows co (Z.of_nat dop) fuel (Z.of_nat prec) (fun a b => Ok (draw a b)) outline (Fin spacing) (Fin bottom) (Fin y) (Fin h) = Ok (map (fun c => draw (fst c) (snd c)) (concat rs)).
Proof.
  intros HS HI. induction n as [|n IH]; intros y h Hh HN.
  - exists []. cbn [INR] in HN. split; [constructor; lra|]. intros [|fuel] L; [lia|]. cbn [rows]. fin. destruct (Rleb_spec y bottom); [lra|]. reflexivity.
  - destruct (Rle_or_lt y bottom) as [L|L].
    + destruct (HI y L) as (l & EL & FL). destruct (pieces_any y l FL h Hh) as (h' & H' & EP & N1 & N2). destruct (IH (y + h' + spacing) h' H') as (rs & LR & RS); [rewrite S_INR in HN; lra|].
      exists (filter (apart prec) (twos l) :: rs). split; [econstructor; eassumption|]. intros [|fuel] LF; [lia|]. cbn [rows]. fin. destruct (Rleb_spec y bottom); [|lra]. cbn [negb]. rewrite EL. cbn [bind]. rewrite EP. cbn [bind]. fin.
      rewrite RS by lia. cbn [bind concat]. rewrite map_app. reflexivity.
    + exists []. split; [constructor; exact L|]. intros [|fuel] LF; [lia|]. cbn [rows]. fin. destruct (Rleb_spec y bottom); [lra|]. reflexivity.
Qed.
End Any.

(** Components of any height and a positive spacing: rendering ends, the rows are as described by [laid], and exactly these pieces are drawn, row by row; if no row has a
    stretch there is an error. *)
Theorem C66_any_height bf dop prec (outline : path RNum) draw (l t r b spacing start : R) : 0 < spacing ->
  let co := BezierOps RTrig RBMath bf in
  BoundingBoxWithWhitespace co outline = Ok (pnt l t, pnt r b) ->
  (forall y a c, levelAt y a -> levelAt y c -> Forall tame (draw a c) /\ drawn (draw a c) <> []) ->
  (forall y, y <= b -> exists l, HorizontalIntercepts co (Z.of_nat dop) outline (Fin y) = Ok l /\ Forall (levelAt y) l) ->
  exists rs F, laid bf dop prec outline draw spacing b (t + start) 0 rs /\ forall fuel, (F < fuel)%nat ->
    (concat rs = [] -> XIntercept co (Z.of_nat dop) fuel (Z.of_nat prec) [] (Ok outline) (fun a b => Ok (draw a b)) (Fin start) (Fin spacing) = Err) /\
    (concat rs <> [] -> exists q c, XIntercept co (Z.of_nat dop) fuel (Z.of_nat prec) [] (Ok outline) (fun a b => Ok (draw a b)) (Fin start) (Fin spacing) = Ok (Some (q, c)) /\ ends q c /\
       drawn q = flat_map (fun c => drawn (draw (fst c) (snd c))) (concat rs)).
Proof.
  intros HS co EB HD HI. assert (A : exists n, (b - (t + start)) / spacing < INR n).
  { exists (Z.to_nat (Z.max 0 (up ((b - (t + start)) / spacing)))). rewrite INR_IZR_INZ, Z2Nat.id by lia. pose proof (archimed ((b - (t + start)) / spacing)) as [U _]. pose proof (IZR_le _ _ (Z.le_max_r 0 (up ((b - (t + start)) / spacing)))). lra. }
  destruct A as [n Hn].
  assert (HN : b - (t + start) < INR n * spacing). { apply Rmult_lt_reg_r with (/ spacing); [apply Rinv_0_lt_compat; exact HS|]. field_simplify; [|lra|lra]. unfold Rdiv in Hn. lra. }
  destruct (rows_any bf dop prec outline draw spacing b HD HS HI n (t + start) 0 (Rle_refl 0) HN) as (rs & LR & RS).
  exists rs, n. split; [exact LR|]. intros fuel LF. specialize (RS fuel LF). fold co in RS.
  assert (LV : forall c, In c (concat rs) -> exists y, levelAt y (fst c) /\ levelAt y (snd c)).
  { clear -LR HI. induction LR as [|y h l h' rs L E N1 N2 LR IH]; intros c I; [destruct I|]. cbn [concat] in I. apply in_app_or in I as [I|I]; [|apply IH; exact I]. exists y.
    destruct (HI y L) as (l' & E' & F). fold co in E. rewrite E in E'. injection E' as <-. apply filter_In in I as [I _]. apply twos_in in I. rewrite Forall_forall in F. split; apply F; apply I. }
  split.
  - intros EN. rewrite EN in RS. unfold XIntercept. fin. destruct (Reqb_spec spacing 0); [lra|]. cbn [bind]. rewrite EB. cbn [bind px py pnt]. fin. change (@zero RNum) with (Fin 0 : T RNum). rewrite RS. reflexivity.
  - intros NE. assert (ED : flat_map (fun c => drawn (draw (fst c) (snd c))) (concat rs) = concat (map drawn (map (fun c => draw (fst c) (snd c)) (concat rs)))) by (rewrite map_map, <- flat_map_concat_map; reflexivity).
    rewrite ED. remember (map (fun c => draw (fst c) (snd c)) (concat rs)) as pl eqn:EP. destruct pl as [|p ps]; [exfalso; apply NE; symmetry in EP; apply map_eq_nil in EP; exact EP|].
    assert (A : Forall (fun q => q <> [] /\ Forall tame q) (p :: ps)).
    { rewrite EP. apply Forall_forall. intros q Hq. apply in_map_iff in Hq as (c & <- & Hc). destruct (LV c Hc) as (y & L1 & L2). destruct (HD y _ _ L1 L2) as [A1 A2]. split; [|exact A1]. intros E. rewrite E in A2. apply A2. reflexivity. }
    destruct (JoinPaths_spec p ps) as (q & EJ & DJ & TJ & (u & Eu) & _); [eapply Forall_impl; [|exact A]; cbv beta; tauto|eapply Forall_impl; [|exact A]; cbv beta; tauto|].
    assert (NQ : q <> []) by (inversion A as [|? ? [Np _] _]; subst; destruct p; [congruence|discriminate]). destruct (snoc_of q NQ) as (i & z & Ez).
    exists q, (send z). split; [|split; [exists i, z; auto|exact DJ]].
    unfold XIntercept. fin. destruct (Reqb_spec spacing 0); [lra|]. cbn [bind]. rewrite EB. cbn [bind px py pnt]. fin. change (@zero RNum) with (Fin 0 : T RNum). rewrite RS. cbn [bind]. rewrite EJ. cbn [bind]. unfold HandleTransforms. cbn [applyTransforms bind].
    unfold PathCursor. rewrite Ez, Tail_snoc. reflexivity.
Qed.
Print Assumptions C66_any_height.

(** *** findings *)
(** If the outline fails to render, no error is reported: there is no path, and none is missed. *)
Theorem C66_error_refuted {N : Num} co dop fuel prec ts comp (startY repeatY : T N) : eqb repeatY zero = false -> XIntercept co dop fuel prec ts Err comp startY repeatY = Ok None.
Proof. intros H. unfold XIntercept. rewrite H. reflexivity. Qed.
(** nor if the component fails to render, here in the first row of a rectangle *)
Theorem C66_component_error_refuted : XIntercept noCurves 3 9 3 [] (Ok [mv 0 0 1 0; ln 1 0 3 0; ln 3 0 3 4; ln 3 4 1 4; ln 1 4 1 0]) (fun _ _ => Err) (fz 1) (fz 1) = Ok None.
Proof. reflexivity. Qed.

(** An outline, a flat component and a negative spacing: the rows go upwards and rendering never ends. *)
Definition flat (a b : Pt RNum) : path RNum := [Move (pnt 0 0) a; Line a b].
Lemma flat_tall bf y a b : levelAt y a -> levelAt y b -> flat a b <> [] /\ Forall tame (flat a b) /\ tall (BezierOps RTrig RBMath bf) 0 (flat a b).
Proof.
  intros [Fa Ya] [Fb Yb]. split; [discriminate|]. assert (T : Forall tame (flat a b)) by (unfold flat; repeat constructor; auto using finitePt_pnt). split; [exact T|].
  destruct (C35_trim_box_tight RTrig RBMath bf (flat a b) T) as (tl & br & E & _ & _ & _ & (x1 & T1) & (x2 & T2)); [discriminate|].
  assert (L : forall x z, inDrawing (flat a b) x z -> z = y) by (intros x z (g & [<-|[<-|[]]] & V & (u & _ & _ & EY)); [destruct V|]; rewrite EY, Ya, Yb; ring).
  destruct (BoundingBoxTrimWhitespace_tight _ (BezierOps_boxOk RTrig RBMath bf) (flat a b) T) as (tl' & br' & E' & F1 & F2 & _); [discriminate|]. rewrite E in E'. injection E' as <- <-.
  exists tl, br. split; [exact E|]. split; [exact F1|]. split; [exact F2|]. rewrite (L _ _ T1), (L _ _ T2). ring.
Qed.
Theorem C66_endless_refuted : forall fuel, XIntercept (BezierOps RTrig RBMath 9) 3 fuel 3 [] (Ok trapezoid) (fun a b => Ok (flat a b)) (Fin 0) (Fin (-1)) = OutOfFuel.
Proof.
  intros fuel. destruct (trapezoid_box 9) as (l & r & b & EB & ->). set (co := BezierOps RTrig RBMath 9) in *. unfold XIntercept. fin. destruct (Reqb_spec (-1) 0); [lra|]. cbn [bind]. rewrite EB. cbn [bind px py pnt]. fin.
  assert (G : forall y, y <= 4 -> rows co 3 fuel 3 (fun a b => Ok (flat a b)) trapezoid (Fin (-1)) (Fin 4) (Fin y) (Fin 0) = OutOfFuel).
  { induction fuel as [|fuel IH]; intros y L; [reflexivity|]. cbn [rows]. fin. destruct (Rleb_spec y 4); [|lra]. cbn [negb].
    destruct (C64_intercepts_partial 9 3 trapezoid y trapezoid_tame trapezoid_inside trapezoid_wide (trapezoid_clear y)) as (pts & E & _ & S & _). fold co in E. change (Z.of_nat 3) with 3%Z in E. rewrite E. cbn [bind].
    change 3%Z with (Z.of_nat 3) at 1. rewrite (pieces_spec co 3 flat 0 (fun y a b A B => proj2 (proj2 (flat_tall 9 y a b A B))) y).
    2:{ apply Forall_forall. intros q Hq. destruct (S q Hq) as (x & g & -> & _). split; [apply finitePt_pnt|apply pnt_Y]. }
    cbn [bind]. assert (EH : forall cs : list (Pt RNum * Pt RNum), match cs with [] => Fin 0 | _ => Fin 0 end = Fin 0) by (intros []; reflexivity). rewrite EH. fin. rewrite IH by lra. reflexivity. }
  rewrite G by lra. reflexivity.
Qed.
(** *** example: four rows in the trapezoid *)
Example C66_example : exists q c, XIntercept (BezierOps RTrig RBMath 9) 3 9 3 [] (Ok trapezoid) (fun a b => Ok (flat a b)) (Fin (1 / 2)) (Fin 1) = Ok (Some (q, c)) /\
  drawn q = [Line (pnt (1 / 4) (1 / 2)) (pnt (39 / 4) (1 / 2)); Line (pnt (3 / 4) (3 / 2)) (pnt (37 / 4) (3 / 2)); Line (pnt (5 / 4) (5 / 2)) (pnt (35 / 4) (5 / 2)); Line (pnt (7 / 4) (7 / 2)) (pnt (33 / 4) (7 / 2))].
Proof.
  destruct (trapezoid_box 9) as (l & r & b & EB & ->). set (co := BezierOps RTrig RBMath 9) in *.
  assert (ST : forall k, stepAt (0 + 1 / 2) (0 + 1) k = 1 / 2 + INR k) by (intros; unfold stepAt; ring).
  assert (S4 : forall k, 1 / 2 + INR k <= 4 <-> (k < 4)%nat).
  { intros k. split; [intros L; apply INR_lt; cbn; lra|]. intros L. assert (INR k <= INR 3) by (apply le_INR; lia). cbn in H. lra. }
  assert (HI : forall k, (k < 4)%nat -> HorizontalIntercepts co 3 trapezoid (Fin (1 / 2 + INR k)) = Ok [pnt ((1 / 2 + INR k) / 2) (1 / 2 + INR k); pnt (10 - (1 / 2 + INR k) / 2) (1 / 2 + INR k)]).
  { intros k L. apply S4 in L as L'. pose proof (pos_INR k). assert (INR k <= INR 3) by (apply le_INR; lia). cbn in H0.
    destruct (trapezoid_crossings (1 / 2 + INR k)) as [V P]; [lra|]. destruct (C64_crossings 9 3 trapezoid _ trapezoid_tame trapezoid_inside trapezoid_wide (trapezoid_clear _) V) as (pts & E & S & Q). fold co in E. change (Z.of_nat 3) with 3%Z in E. rewrite E. f_equal.
    rewrite P in Q. apply Permutation_sym, Permutation_length_2_inv in Q. destruct Q as [->| ->]; [reflexivity|]. exfalso. inversion S as [|? ? _ F]; subst. inversion F as [|? ? L2 _]; subst. rewrite !pnt_X in L2. lra. }
  assert (SK : forall k, (k < 4)%nat -> stretches co 3 3 trapezoid (0 + 1 / 2) (0 + 1) k = [(pnt ((1 / 2 + INR k) / 2) (1 / 2 + INR k), pnt (10 - (1 / 2 + INR k) / 2) (1 / 2 + INR k))]).
  { intros k L. unfold stretches. rewrite ST. change (Z.of_nat 3) with 3%Z. rewrite HI by exact L. cbn [twos filter]. unfold apart. cbn [fst snd]. rewrite !pnt_X.
    destruct (agree_dec 3 _ 0) as [A|A]; [|reflexivity]. apply agree_close in A. rewrite Rminus_0_r in A. pose proof (Rle_abs (10 - (1 / 2 + INR k) / 2 - (1 / 2 + INR k) / 2)). apply S4 in L. cbn in A. lra. }
  destruct (C66_rows_partial co 3 3 trapezoid flat l 0 r 4 1 0 (1 / 2)) as (K & HK & HR); [lra|lra|exact EB|lra|apply flat_tall| |].
  { intros k L. rewrite ST in *. apply S4 in L. split; [|rewrite SK by exact L; discriminate]. eexists. split; [apply HI; exact L|]. repeat constructor; apply pnt_Y. }
  assert (K4 : K = 4%nat).
  { assert (3 < K)%nat by (apply HK; rewrite ST; cbn; lra). assert (~ (4 < K)%nat) by (intros Z; apply HK in Z; rewrite ST in Z; cbn in Z; lra). lia. } subst K.
  destruct (HR 9%nat ltac:(lia)) as (q & c & E & _ & D). exists q, c. split; [exact E|]. rewrite D. cbn [seq flat_map]. rewrite !SK by lia. cbn [flat_map app drawn flat fst snd INR]. unfold pnt. repeat (f_equal; try lra).
Qed.

(** *** example: tents in the trapezoid, each a tenth of its width high: the second row is 0.95 + 1 below the first *)
Definition tent (a c : Pt RNum) : path RNum := [Move (pnt 0 0) a; Line a (pnt ((X a + X c) / 2) (Y a + (X c - X a) / 10)); Line (pnt ((X a + X c) / 2) (Y a + (X c - X a) / 10)) c].
Lemma tent_ok y a c : levelAt y a -> levelAt y c -> Forall tame (tent a c) /\ drawn (tent a c) <> [].
Proof. intros [Fa _] [Fc _]. split; [|discriminate]. unfold tent. repeat constructor; auto using finitePt_pnt. Qed.
Lemma tent_height y a c h : levelAt y a -> levelAt y c -> X a < X c -> heightIs (tent a c) h -> h = (X c - X a) / 10.
Proof.
  intros [Fa Ya] [Fc Yc] L (lo & hi & B & (x1 & O1) & (x2 & O2) & <-).
  assert (IN : forall x z, inDrawing (tent a c) x z -> y <= z <= y + (X c - X a) / 10).
  { intros x z (g & [<-|[<-|[<-|[]]]] & V & (u & U & _ & EZ)); [destruct V| |]; rewrite EZ, ?pnt_Y, ?Ya, ?Yc; split; nra. }
  assert (A1 : inDrawing (tent a c) (X a) y). { eexists. split; [right; left; reflexivity|]. split; [exact I|]. exists 0. rewrite pnt_X, pnt_Y, Ya. repeat split; try lra. }
  assert (A2 : inDrawing (tent a c) ((X a + X c) / 2) (y + (X c - X a) / 10)). { eexists. split; [right; left; reflexivity|]. split; [exact I|]. exists 1. rewrite pnt_X, pnt_Y, Ya. repeat split; try lra. }
  apply B in A1, A2. apply IN in O1, O2. lra.
Qed.
Lemma trapezoid_row y : 1 / 2 <= y <= 7 / 2 -> HorizontalIntercepts (BezierOps RTrig RBMath 9) 3 trapezoid (Fin y) = Ok [pnt (y / 2) y; pnt (10 - y / 2) y].
Proof.
  intros L. destruct (trapezoid_crossings y L) as [V P]. destruct (C64_crossings 9 3 trapezoid _ trapezoid_tame trapezoid_inside trapezoid_wide (trapezoid_clear _) V) as (pts & E & S & Q). change (Z.of_nat 3) with 3%Z in E. rewrite E. f_equal.
  rewrite P in Q. apply Permutation_sym, Permutation_length_2_inv in Q. destruct Q as [->| ->]; [reflexivity|]. exfalso. inversion S as [|? ? _ F]; subst. inversion F as [|? ? L2 _]; subst. rewrite !pnt_X in L2. lra.
Qed.
Lemma tent_row y h rs : 1 / 2 <= y <= 7 / 2 -> laid 9 3 3 trapezoid tent 1 4 y h rs ->
  exists rs', rs = [(pnt (y / 2) y, pnt (10 - y / 2) y)] :: rs' /\ laid 9 3 3 trapezoid tent 1 4 (y + (10 - y) / 10 + 1) ((10 - y) / 10) rs'.
Proof.
  intros L R. inversion R as [|? ? l h' rs' L2 E N1 N2 R']; subst; [lra|]. change (Z.of_nat 3) with 3%Z in E. rewrite trapezoid_row in E by exact L. injection E as <-.
  assert (EF : filter (apart 3) (twos [pnt (y / 2) y; pnt (10 - y / 2) y]) = [(pnt (y / 2) y, pnt (10 - y / 2) y)]).
  { cbn [twos filter]. unfold apart. cbn [fst snd]. rewrite !pnt_X. destruct (agree_dec 3 _ 0) as [A|A]; [|reflexivity]. apply agree_close in A. rewrite Rminus_0_r in A. pose proof (Rle_abs (10 - y / 2 - y / 2)). cbn in A. lra. }
  rewrite EF in *. exists rs'. split; [reflexivity|]. specialize (N2 [] _ eq_refl). cbn [fst snd] in N2.
  apply (tent_height y) in N2; [|split; [apply finitePt_pnt|apply pnt_Y]|split; [apply finitePt_pnt|apply pnt_Y]|rewrite !pnt_X; lra]. rewrite !pnt_X in N2. replace ((10 - y) / 10) with h' by lra. exact R'.
Qed.
Example C66_any_height_example : exists F, forall fuel, (F < fuel)%nat -> exists q c,
  XIntercept (BezierOps RTrig RBMath 9) 3 fuel 3 [] (Ok trapezoid) (fun a b => Ok (tent a b)) (Fin (1 / 2)) (Fin 1) = Ok (Some (q, c)) /\ ends q c /\
  drawn q = [Line (pnt (1 / 4) (1 / 2)) (pnt 5 (29 / 20)); Line (pnt 5 (29 / 20)) (pnt (39 / 4) (1 / 2)); Line (pnt (49 / 40) (49 / 20)) (pnt 5 (641 / 200)); Line (pnt 5 (641 / 200)) (pnt (351 / 40) (49 / 20))].
Proof.
  destruct (trapezoid_box 9) as (l & r & b & EB & ->).
  destruct (C66_any_height 9 3 3 trapezoid tent l 0 r 4 1 (1 / 2)) as (rs & F & LD & H); [lra|exact EB|exact tent_ok| |].
  { intros y _. destruct (C64_intercepts_partial 9 3 trapezoid y trapezoid_tame trapezoid_inside trapezoid_wide (trapezoid_clear y)) as (pts & E & _ & S & _). exists pts. split; [exact E|]. apply Forall_forall. intros q Hq. destruct (S q Hq) as (x & g & -> & _). split; [apply finitePt_pnt|apply pnt_Y]. }
  exists F. intros fuel LF. destruct (H fuel LF) as [_ H2]. clear H.
  apply tent_row in LD as (rs1 & -> & LD); [|lra]. apply tent_row in LD as (rs2 & -> & LD); [|lra]. assert (rs2 = []) by (inversion LD; subst; [reflexivity|lra]). subst rs2.
  destruct H2 as (q & c & E & EN & D); [discriminate|]. exists q, c. split; [exact E|]. split; [exact EN|]. rewrite D. cbn [concat app flat_map drawn tent fst snd]. rewrite !pnt_X, !pnt_Y. unfold pnt. repeat (f_equal; try lra).
Qed.

(** The row below is as far down as the LAST piece of the row above is high, not the highest: in two columns of which the left one is wider, squares as high as wide overlap. *)
Definition columns : path FNum := [mv 0 0 0 0; ln 0 0 0 20; ln 0 20 4 20; ln 4 20 4 0; ln 4 0 0 0; mv 0 0 6 0; ln 6 0 6 20; ln 6 20 7 20; ln 7 20 7 0; ln 7 0 6 0].
Definition square (a c : Pt FNum) : path FNum :=
  let b := add (py a) (sub (px c) (px a)) in [Move (pt 0 0) a; Line a (mkPt (px a) b); Line (mkPt (px a) b) (mkPt (px c) b); Line (mkPt (px c) b) c].
Lemma nth_seg (q : path FNum) k g : nth_error (dpath q) k = Some (dseg g) -> In g q.
Proof. unfold dpath. rewrite nth_error_map. destruct (nth_error q k) as [h|] eqn:E; [|discriminate]. cbn [option_map]. intros H. injection H as H. apply dseg_inj in H. subst h. eapply nth_error_In, E. Qed.
Theorem C66_overlap_refuted : exists q c, XIntercept noCurves 3 12 3 [] (Ok columns) (fun a b => Ok (square a b)) (fz 1) (fz 1) = Ok (Some (q, c)) /\
  In (ln 0 1 0 5) q /\ In (ln 7 2 7 1) q /\ In (ln 0 3 0 7) q.
Proof.
  assert (H : match XIntercept noCurves 3 12 3 [] (Ok columns) (fun a b => Ok (square a b)) (fz 1) (fz 1) with
              | Ok (Some (q, _)) => Some (nth_error (dpath q) 1, nth_error (dpath q) 8, nth_error (dpath q) 11) | _ => None end = Some (Some (dseg (ln 0 1 0 5)), Some (dseg (ln 7 2 7 1)), Some (dseg (ln 0 3 0 7)))) by (vm_compute; reflexivity).
  destruct (XIntercept _ _ _ _ _ _ _ _ _) as [[[q c]|]| | |]; try discriminate H. exists q, c. split; [reflexivity|]. split; [apply (nth_seg q 1)|split; [apply (nth_seg q 8)|apply (nth_seg q 11)]]; congruence.
Qed.
Print Assumptions C66_overlap_refuted.
