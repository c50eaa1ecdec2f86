(** Padded insertion and whole layouts in binary64 (C23, C49). *)
From Coq Require Import List ZArith Bool Lia Reals Lra Permutation.
From Coq.Floats Require Import SpecFloat.
From Flocq Require Import Core.
From Flocq.IEEE754 Require BinarySingleNaN.
From Verif Require Import Num NumLaws FloatNum RealNum PathModel PrecisionProofs IeeeProofs IeeeArith RelError BinPack BinPackProofs BinPackGeom BinPackFloat PlanSet PlanSetProofs.
Import BinarySingleNaN ListNotations.
Local Open Scope R_scope.

(** ** specification *)
(** a rectangle of reals: left, top, width, height *)
Record box := mkBox { bx : R; by_ : R; bw : R; bh : R }.
(** the same rectangle turned by 90 degrees, same corner *)
Definition turnB (g : box) : box := mkBox (bx g) (by_ g) (bh g) (bw g).
(** the numbers of a rectangle of floats *)
Definition boxOf (r : rectF) : box := mkBox #(rx r) #(ry r) #(rw r) #(rh r).
(** at least [p] away from each edge of the sheet, up to [t] *)
Definition clearB (t p X Y W H : R) (g : box) : Prop :=
  X + p - t <= bx g /\ bx g + bw g + p <= X + W + t /\ Y + p - t <= by_ g /\ by_ g + bh g + p <= Y + H + t.
(** at least [s] apart along one of the axes, up to [t] *)
Definition apartB (t s : R) (a b : box) : Prop :=
  bx a + bw a + s <= bx b + t \/ bx b + bw b + s <= bx a + t \/ by_ a + bh a + s <= by_ b + t \/ by_ b + bh b + s <= by_ a + t.
(** a finite positive size that can be padded without overflow *)
Definition sizeOk (w : T FNum) : Prop := gofin w /\ 0 < #w <= bpow radix2 1022.

Section Pad.
Context {O : Type}.
Notation bin := (bin FNum O).
Variable e : Z.
Hypothesis He : (-1020 <= e <= 1022)%Z.
Notation d := (half_ulp e).
Variable p : T FNum.
Hypothesis Gp : gofin p.
Hypothesis P0 : 0 <= #p.
Hypothesis P2 : 2 * #p <= bpow radix2 e.

Lemma two_fin : gofin (@ofZ FNum 2) /\ #(@ofZ FNum 2) = 2.
Proof. split; [split; reflexivity|]. replace (@ofZ FNum 2) with (S754_finite false 4503599627370496 (-51)) by (vm_compute; reflexivity). unfold fval. simpl. lra. Qed.
Lemma bpow_small : bpow radix2 e <= bpow radix2 1022. Proof. apply bpow_le. lia. Qed.
Lemma bpow_1023 : bpow radix2 1023 = 2 * bpow radix2 1022. Proof. change 1023%Z with (1 + 1022)%Z. rewrite bpow_plus. reflexivity. Qed.

(** twice the padding: at least the padding, off by one rounding *)
Lemma double_F : gofin (@mul FNum p (ofZ 2)) /\ #p <= #(@mul FNum p (ofZ 2)) <= bpow radix2 e /\ Rabs (#(@mul FNum p (ofZ 2)) - 2 * #p) <= d.
Proof.
  destruct two_fin as [G2 E2]. assert (B : Rabs (#p * #(@ofZ FNum 2)) <= bpow radix2 e) by (rewrite E2, Rabs_pos_eq; lra).
  destruct (f_mul_correct p (@ofZ FNum 2) Gp G2 (rnd_fits e _ ltac:(lia) B)) as [G E]. change (@mul FNum p (ofZ 2)) with (f_mul p (@ofZ FNum 2)). split; [exact G|]. rewrite E. split; [split|].
  - rewrite <- (rnd_format p Gp) at 1. apply rnd_mono. rewrite E2. lra.
  - rewrite E2 in *. assert (F : generic_format radix2 fexp64 (bpow radix2 e)) by (apply generic_format_bpow; change (FLT_exp (-1074) 53 (e + 1) <= e)%Z; unfold FLT_exp; lia).
    rewrite <- (round_generic radix2 fexp64 (round_mode mode_NE) (bpow radix2 e) F) at 1. apply rnd_mono. lra.
  - rewrite E2 in *. replace (2 * #p) with (#p * 2) by ring. apply rnd_near; [lia|exact B].
Qed.

Lemma padded_F w : sizeOk w -> pos FNum_pack (paddedSize p w) /\ #p <= #(paddedSize p w) /\ #w <= #(paddedSize p w) /\
  (#(paddedSize p w) <= bpow radix2 e -> Rabs (#(paddedSize p w) - (2 * #p + #w)) <= 3 * d).
Proof.
  intros [Gw [W0 W1]]. destruct double_F as (Gm & [M0 M1] & Em). set (m := @mul FNum p (ofZ 2)) in *. pose proof bpow_small as Bs. pose proof bpow_1023 as B3. pose proof (half_ulp_pos e) as D0.
  assert (S1 : Rabs (#m + #w) <= bpow radix2 1023) by (rewrite Rabs_pos_eq; lra).
  destruct (f_add_correct m w Gm Gw (rnd_not_big _ S1)) as [Gs Es]. change (paddedSize p w) with (f_add m w).
  assert (Lw : #w <= #(f_add m w)) by (rewrite Es, <- (rnd_format w Gw) at 1; apply rnd_mono; lra).
  assert (Lm : #m <= #(f_add m w)) by (rewrite Es, <- (rnd_format m Gm) at 1; apply rnd_mono; lra).
  split; [split; [exact Gs|]|].
  { change (@ltb FNum zero (f_add m w)) with (@ltb FNum (S754_zero false) (f_add m w)). rewrite ltb_R by (try exact Gs; apply gofin_zero). apply Rlt_bool_true. change #(S754_zero false) with 0. lra. }
  split; [lra|]. split; [lra|]. intros Hle.
  assert (Hb : bpow radix2 (e + 1) = 2 * bpow radix2 e) by (rewrite Z.add_comm, bpow_plus; reflexivity).
  assert (Hs : #m + #w <= bpow radix2 (e + 1)).
  { apply Rnot_lt_le. intros L. assert (F : generic_format radix2 fexp64 (bpow radix2 (e + 1))) by (apply generic_format_bpow; change (FLT_exp (-1074) 53 (e + 1 + 1) <= e + 1)%Z; unfold FLT_exp; lia).
    assert (Q : bpow radix2 (e + 1) <= #(f_add m w)) by (rewrite Es, <- (round_generic radix2 fexp64 (round_mode mode_NE) (bpow radix2 (e + 1)) F) at 1; apply rnd_mono; lra).
    pose proof (bpow_gt_0 radix2 e). lra. }
  assert (N : Rabs (rnd (#m + #w) - (#m + #w)) <= half_ulp (e + 1)) by (apply rnd_near; [lia|rewrite Rabs_pos_eq; lra]).
  assert (Hd : half_ulp (e + 1) = 2 * d) by (unfold half_ulp; replace (e + 1 - 54)%Z with (1 + (e - 54))%Z by lia; rewrite bpow_plus; reflexivity).
  rewrite Es. apply abs_le in N. apply abs_le in Em. apply Rabs_le. lra.
Qed.
Lemma okPart_F (q : O * T FNum * T FNum) : sizeOk (snd (fst q)) -> sizeOk (snd q) -> okPart FNum_pack p q.
Proof.
  destruct q as [[o w] h]. cbn [fst snd]. intros Sw Sh. destruct (padded_F w Sw) as (Pw & _). destruct (padded_F h Sh) as (Ph & _).
  assert (NZ : forall v, sizeOk v -> leb v zero = false /\ isnan v = false).
  { intros v [[Gv1 Gv2] [V0 _]]. destruct v as [s|s| |s mm ee]; try discriminate; try (cbn in V0; lra). split; [|reflexivity]. destruct s; [|reflexivity]. exfalso. apply (Rlt_not_le _ _ V0). rewrite fval_SF2R. cbn [SF2R]. unfold F2R. cbn. pose proof (bpow_gt_0 radix2 ee). assert (IZR (Z.neg mm) < 0) by (apply IZR_lt; lia). nra. }
  destruct (NZ w Sw), (NZ h Sh). unfold okPart. repeat (split; [assumption|]). assumption.
Qed.

(** a reserved rectangle and the ground the part takes in it *)
Definition restsIn (r : rectF) (g : box) : Prop :=
  Rabs (bx g - (#(rx r) + #p)) <= d /\ Rabs (by_ g - (#(ry r) + #p)) <= d /\ Rabs (bw g - (#(rw r) - 2 * #p)) <= 3 * d /\ Rabs (bh g - (#(rh r) - 2 * #p)) <= 3 * d.
Definition restsO (a : placement (N:=FNum)) (g : option box) : Prop := match a, g with Some (r, _), Some g => restsIn r g | None, None => True | _, _ => False end.
Definition footO (a : placement (N:=FNum)) (g : option box) : Prop := match a, g with Some (r, _), Some g => g = boxOf r \/ g = turnB (boxOf r) | None, None => True | _, _ => False end.

Lemma rest_one K (x y w h : T FNum) q r rot : 0 <= #x -> 0 <= #y -> #x + #w + 2 * INR K * d <= bpow radix2 e -> #y + #h + 2 * INR K * d <= bpow radix2 e ->
  sizeOk (snd (fst q)) -> sizeOk (snd q) ->
  sizeF (padReqF p q) r -> withinF (2 * INR K * d) r (mkRect x y w h) -> gofin (rx r) -> gofin (ry r) -> exists g, restsO (Some (r, rot)) g /\ footO (unpadF (O:=O) p q (Some (r, rot))) g.
Proof.
  destruct q as [[o qw] qh]. cbn [fst snd padReqF sizeF]. intros X0 Y0 BX BY Sw Sh Sz (A1 & A2 & A3 & A4) Grx Gry. cbn [rx ry rw rh] in A1, A2, A3, A4. pose proof (half_ulp_pos e) as D0.
  destruct (padded_F qw Sw) as (_ & Pw & Lw & Ew). destruct (padded_F qh Sh) as (_ & Ph & Lh & Eh). destruct Sw as [_ [Sw _]], Sh as [_ [Sh _]].
  assert (NX : Rabs (#(add (n:=FNum) (rx r) p) - (#(rx r) + #p)) <= d) by (apply (add_near e (rx r) p ltac:(lia) Grx Gp); rewrite Rabs_pos_eq by lra; destruct Sz as [[Z1 Z2]|[Z1 Z2]]; lra).
  assert (NY : Rabs (#(add (n:=FNum) (ry r) p) - (#(ry r) + #p)) <= d) by (apply (add_near e (ry r) p ltac:(lia) Gry Gp); rewrite Rabs_pos_eq by lra; destruct Sz as [[Z1 Z2]|[Z1 Z2]]; lra).
  assert (NW : Rabs (#qw - (#(paddedSize p qw) - 2 * #p)) <= 3 * d) by (assert (Q : Rabs (#(paddedSize p qw) - (2 * #p + #qw)) <= 3 * d) by (apply Ew; destruct Sz as [[Z1 Z2]|[Z1 Z2]]; lra); apply abs_le in Q; apply Rabs_le; lra).
  assert (NH : Rabs (#qh - (#(paddedSize p qh) - 2 * #p)) <= 3 * d) by (assert (Q : Rabs (#(paddedSize p qh) - (2 * #p + #qh)) <= 3 * d) by (apply Eh; destruct Sz as [[Z1 Z2]|[Z1 Z2]]; lra); apply abs_le in Q; apply Rabs_le; lra).
  set (r0 := @mkRect FNum (add (n:=FNum) (rx r) p) (add (n:=FNum) (ry r) p) qw qh).
  destruct Sz as [[Z1 Z2]|[Z1 Z2]]; [exists (Some (boxOf r0))|exists (Some (turnB (boxOf r0)))]; (split; [|cbn [footO unpadF fst snd]; fold r0; auto]); cbn [restsO]; unfold restsIn, turnB, boxOf, r0; cbn [bx by_ bw bh rx ry rw rh]; rewrite Z1, Z2; auto.
Qed.

Lemma padded_history_F K (x y w h : T FNum) : gofin x -> gofin y -> gofin w -> gofin h -> 0 <= #x -> 0 <= #y -> 0 <= #w -> 0 <= #h ->
  #x + #w + 2 * INR K * d <= bpow radix2 e -> #y + #h + 2 * INR K * d <= bpow radix2 e -> forall (reqs : list (O * T FNum * T FNum)) ans b', Forall (okPart FNum_pack p) reqs ->
  insertsPadded 3 p (NewContainer x y w h : bin) reqs = Ok (ans, b') -> (List.length (placedF ans) <= K)%nat ->
  Forall2 (fun q a => a <> None -> sizeOk (snd (fst q)) /\ sizeOk (snd q)) reqs ans ->
  exists foots, Forall2 (fun q a => match a with Some (r, _) => rw r = snd (fst q) /\ rh r = snd q | None => True end) reqs ans /\ Forall2 footO ans foots /\
    Forall (fun g => match g with Some g => clearB ((2 * INR K + 4) * d) #p #x #y #w #h g | None => True end) foots /\
    pairwise (fun g g' => match g, g' with Some g, Some g' => apartB ((2 * INR K + 6) * d) (2 * #p) g g' | _, _ => True end) foots.
Proof.
  intros Gx Gy Gw Gh X0 Y0 W0 H0 BX BY reqs ans b' Hok E HK Hs. pose proof (half_ulp_pos e) as D0.
  destruct (insertsPadded_back p reqs _ _ _ E) as (ans0 & E0 & -> & Ln).
  assert (Hr : Forall (reqOk FNum_pack) (map (padReqF p) reqs)). { rewrite Forall_map. eapply Forall_impl; [|exact Hok]. intros [[o qw] qh] (_ & _ & _ & _ & Hw & Hh). split; assumption. }
  assert (HK0 : (List.length (placedF ans0) <= K)%nat).
  { clear - HK Ln. enough (Q : List.length (placedF ans0) = List.length (placedF (unpadsF p reqs ans0))) by lia. clear HK. revert reqs Ln. induction ans0 as [|a l IH]; intros [|q reqs] Ln; try discriminate; [reflexivity|]. injection Ln as Ln. cbn [unpadsF]. destruct a as [[r rot]|]; cbn [unpadF placedF List.length]; rewrite (IH _ Ln); reflexivity. }
  destruct (container_F e ltac:(lia) x y w h K Gx Gy Gw Gh X0 Y0 W0 H0 BX BY _ _ _ Hr E0 HK0) as [S A]. apply Forall2_map_l in S.
  assert (FX : exists foots, Forall2 restsO ans0 foots /\ Forall2 footO (unpadsF p reqs ans0) foots).
  { clear - S Hs X0 Y0 BX BY He Gp P0 P2. induction S as [|q a l l' Hq S IH]; cbn [unpadsF] in *; [exists []; split; constructor|]. inversion Hs as [|? ? ? ? Hs1 Hs2]; subst. destruct (IH Hs2) as (gs & G1 & G2).
    destruct a as [[r rot]|]; [|exists (None :: gs); split; constructor; auto; exact I].
    destruct (Hs1 ltac:(discriminate)) as [Sw Sh]. destruct Hq as (Z & Wi & F1 & F2). destruct (rest_one K x y w h q r rot X0 Y0 BX BY Sw Sh Z Wi F1 F2) as (g & R1 & R2). exists (g :: gs). split; constructor; assumption. }
  destruct FX as (foots & R & F). exists foots. split; [|split; [exact F|split]].
  - clear - Ln. revert reqs Ln. induction ans0 as [|a l IH]; intros [|q reqs] Ln; try discriminate; cbn [unpadsF]; constructor; [|apply IH; injection Ln; auto]. destruct a as [[r rot]|]; cbn [unpadF]; [|exact I]. cbn [rw rh]. split; reflexivity.
  - clear - S R D0. revert reqs S. induction R as [|a g l gs Hg R IH]; intros reqs S; inversion S as [|q ? qs ? Hq Sr]; subst; constructor; [|eapply IH; eauto].
    destruct a as [[r rot]|], g as [g|]; try contradiction; auto. destruct Hq as (_ & (A1 & A2 & A3 & A4) & _). cbn [rx ry rw rh] in A1, A2, A3, A4. destruct Hg as (G1 & G2 & G3 & G4). apply abs_le in G1, G2, G3, G4. pose proof (pos_INR K). assert (0 <= INR K * d) by nra. unfold clearB. lra.
  - intros i j g g' Hij Hi Hj. 
    assert (Q : forall i g, nth_error foots i = Some (Some g) -> exists r rot, nth_error ans0 i = Some (Some (r, rot)) /\ restsIn r g).
    { clear - R. induction R as [|a g l gs Hg R IH]; intros [|i] g0 Hi; cbn [nth_error] in Hi |- *; try discriminate; [|apply IH; exact Hi]. injection Hi as ->. destruct a as [[r rot]|]; [|destruct Hg]. exists r, rot. split; [reflexivity|exact Hg]. }
    destruct g as [g|]; [|exact I]. destruct g' as [g'|]; [|exact I]. destruct (Q i g Hi) as (r & rot & Ei & G1 & G2 & G3 & G4). destruct (Q j g' Hj) as (r' & rot' & Ej & G1' & G2' & G3' & G4').
    specialize (A i j _ _ Hij Ei Ej). cbn beta iota in A. apply abs_le in G1, G2, G3, G4, G1', G2', G3', G4'. unfold apartF in A. unfold apartB. lra.
Qed.

(** ** whole layouts *)
(** the ground a drawn part would take upright: its position and its size *)
Definition groundB (x : renderable FNum O) : box := let '(_, w, h) := r_part x in mkBox #(px (r_pos x)) #(py (r_pos x)) #w #h.

Lemma norm0_F (x : T FNum) : #(norm0 x) = #x.
Proof. unfold norm0. destruct x as [s|s| |s m ex]; cbn; try reflexivity; destruct s; reflexivity. Qed.

Lemma sheet_layout_F K (W H : T FNum) (s : sheet FNum O) : gofin W -> gofin H -> 0 <= #W -> 0 <= #H ->
  #W + 2 * INR K * d <= bpow radix2 e -> #H + 2 * INR K * d <= bpow radix2 e -> (List.length (s_renderables s) <= K)%nat ->
  Forall (fun x => sizeOk (snd (fst (r_part x))) /\ sizeOk (snd (r_part x))) (s_renderables s) -> reached FNum_pack W H p s ->
  exists foots, Forall2 (fun x g => g = groundB x \/ g = turnB (groundB x)) (s_renderables s) foots /\
    Forall (clearB ((2 * INR K + 4) * d) #p 0 0 #W #H) foots /\ pairwise (apartB ((2 * INR K + 6) * d) (2 * #p)) foots.
Proof.
  intros GW GH W0 H0 BW BH HK Hs (qs & ans & Fq & E & Er & _ & Hl & _). rewrite Er in *.
  assert (Z0 : #(@zero FNum) = 0) by reflexivity.
  assert (HK' : (List.length (placedF ans) <= K)%nat).
  { enough (Q : List.length (placedF ans) = List.length (successes qs ans)) by lia. clear - Hl. revert qs Hl. induction ans as [|a l IH]; intros [|q qs] Hl; try discriminate; [reflexivity|]. injection Hl as Hl. destruct a as [[r rot]|]; cbn [placedF successes List.length]; rewrite (IH _ Hl); reflexivity. }
  assert (Hs' : Forall2 (fun q a => a <> None -> sizeOk (snd (fst q)) /\ sizeOk (snd q)) qs ans).
  { clear - Hl Hs. revert qs Hl Hs. induction ans as [|a l IH]; intros [|q qs] Hl Hs; try discriminate; constructor.
    - intros Na. destruct a as [[r rot]|]; [|congruence]. cbn [successes] in Hs. inversion Hs as [|? ? Hh _]; subst. exact Hh.
    - apply IH; [injection Hl; auto|]. destruct a as [[r rot]|]; cbn [successes] in Hs; [inversion Hs; assumption|exact Hs]. }
  destruct (padded_history_F K (@zero FNum) (@zero FNum) W H gofin_zero gofin_zero GW GH ltac:(rewrite Z0; lra) ltac:(rewrite Z0; lra) W0 H0 ltac:(rewrite Z0; lra) ltac:(rewrite Z0; lra) qs ans _ Fq E HK' Hs') as (foots & Sz & Fo & Ce & Ap).
  rewrite Z0 in Ce. clear E Hs Hs' Fq HK HK'.
  set (cat := fun l : list (option box) => concat (map (fun o => match o with Some g => [g] | None => [] end) l)).
  exists (cat foots). split; [|split].
  - clear Ce Ap Er Hl. revert foots Fo. induction Sz as [|q a qs l Ha Sl IH]; intros foots Fo; inversion Fo as [|? g ? gs Hg Fg]; subst; [constructor|].
    destruct a as [[r rot]|]; destruct g as [g|]; try contradiction; cbn [successes cat map concat app].
    + constructor; [|apply IH; assumption]. destruct Ha as [Hw Hh]. cbn [footO] in Hg. unfold boxOf in Hg. rewrite Hw, Hh in Hg. unfold groundB. cbn [r_part r_pos NewPoint px py]. destruct q as [[o qw] qh]. rewrite !norm0_F. exact Hg.
    + apply IH; assumption.
  - clear - Ce. induction Ce as [|[g|] l Hg Hl IH]; cbn; [constructor|constructor; assumption|assumption].
  - assert (AS : forall t s a b, apartB t s a b -> apartB t s b a) by (unfold apartB; intros; tauto).
    assert (FP : ForallOrdPairs (apartB ((2 * INR K + 6) * d) (2 * #p)) (cat foots)).
    { clear - Ap. induction foots as [|[g|] l IH]; cbn; [constructor| |].
      - constructor.
        + apply Forall_forall. intros b Hb. unfold cat in Hb. apply in_concat in Hb as (x & Hx & Hb). apply in_map_iff in Hx as (o & <- & Ho).
          destruct o as [g'|]; [|destruct Hb]. destruct Hb as [->|[]]. apply In_nth_error in Ho as [j Hj].
          apply (Ap 0%nat (S j) (Some g) (Some b)); [discriminate|reflexivity|exact Hj].
        + apply IH. intros i j a b Hij Hi Hj. apply (Ap (S i) (S j)); auto.
      - apply IH. intros i j a b Hij Hi Hj. apply (Ap (S i) (S j)); auto. }
    clear - FP AS. induction FP as [|a l Ha Hl IH]; intros i j x y Hij Hi Hj.
    + destruct i; discriminate.
    + rewrite Forall_forall in Ha. destruct i as [|i], j as [|j]; cbn in Hi, Hj; try congruence.
      * injection Hi as ->. apply Ha. eapply nth_error_In; eauto.
      * injection Hj as ->. apply AS, Ha. eapply nth_error_In; eauto.
      * apply (IH i j); auto.
Qed.
End Pad.
