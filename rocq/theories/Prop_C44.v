(** C44: unit conversions are inverse. *)
From Coq Require Import String Ascii ZArith NArith Bool List Lia Reals Lra.
From Flocq Require Import Core.
From Verif Require Import Num NumLaws FloatNum RealNum SvgParse PrecisionProofs IeeeProofs IeeeArith RelError GeomSpec BezierProofs UnitsModel Witness.
Import ListNotations.
Local Open Scope R_scope.

Lemma mm_fin : (mmPerInch : T RNum) = Fin (127 / 5).
Proof. unfold mmPerInch. change (@ofZ RNum 254) with (Fin (IZR 254)). change (@ofZ RNum 10) with (Fin (IZR 10)). rewrite fdiv by lra. f_equal. lra. Qed.
Lemma MMToInch_fin x : MMToInch (Fin x : T RNum) = Fin (x / 25.4).
Proof. unfold MMToInch. rewrite mm_fin, fdiv by lra. replace 25.4 with (127 / 5) by lra. reflexivity. Qed.
Lemma InchToMM_fin x : InchToMM (Fin x : T RNum) = Fin (x * 25.4).
Proof. unfold InchToMM. rewrite mm_fin. fin. f_equal. lra. Qed.

Theorem C44_round_trip x : InchToMM (MMToInch (Fin x : T RNum)) = Fin x /\ MMToInch (InchToMM (Fin x : T RNum)) = Fin x.
Proof. rewrite MMToInch_fin, InchToMM_fin, InchToMM_fin, MMToInch_fin. replace 25.4 with (127 / 5) by lra. split; f_equal; field. Qed.
Print Assumptions C44_round_trip.

(** ** floating point: there and back changes a length by at most two parts in 2^52 *)
Lemma mm_float : gofin (mmPerInch : T FNum) /\ 25 < fval (mmPerInch : T FNum) < 26.
Proof.
  assert (E : (mmPerInch : T FNum) = SpecFloat.S754_finite false 7149464408450662 (-48)) by (vm_compute; reflexivity).
  rewrite E. split; [split; reflexivity|]. unfold fval. simpl. lra.
Qed.
Lemma two_errors x d1 d2 : Rabs d1 <= u64 -> Rabs d2 <= u64 -> Rabs (x * (1 + d1) * (1 + d2) - x) <= / 2 ^ 51 * Rabs x.
Proof.
  intros H1 H2. pose proof u64_small as U. replace (x * (1 + d1) * (1 + d2) - x) with ((d1 + d2 + d1 * d2) * x) by ring. rewrite Rabs_mult.
  apply Rmult_le_compat_r; [apply Rabs_pos|]. apply Rabs_le_inv in H1, H2.
  assert (E : / 2 ^ 51 = 4 * u64) by (unfold u64; change (2 ^ 53) with (2 * (2 * 2 ^ 51)); field; apply pow_nonzero; lra). rewrite E. apply Rabs_le. nra.
Qed.

Theorem C44_float_round_trip (x : T FNum) : gofin x -> bpow radix2 (-1000) <= Rabs (fval x) <= bpow radix2 1000 ->
  Rabs (fval (InchToMM (MMToInch x)) - fval x) <= / 2 ^ 51 * Rabs (fval x) /\
  Rabs (fval (MMToInch (InchToMM x)) - fval x) <= / 2 ^ 51 * Rabs (fval x).
Proof.
  intros G [Lo Hi]. destruct mm_float as [GM [M1 M2]]. pose proof u64_small as U. set (c := fval (mmPerInch : T FNum)) in *. set (v := fval x) in *.
  assert (B1 : bpow radix2 (-1000) = 64 * bpow radix2 (-1006)) by (change 64 with (bpow radix2 6); rewrite <- bpow_plus; reflexivity).
  assert (B2 : bpow radix2 1023 = 8388608 * bpow radix2 1000) by (change 8388608 with (bpow radix2 23); rewrite <- bpow_plus; reflexivity).
  assert (B3 : bpow radix2 (-1022) <= bpow radix2 (-1006)) by (apply bpow_le; lia).
  pose proof (bpow_gt_0 radix2 (-1006)) as P1. pose proof (bpow_gt_0 radix2 1000) as P2.
  assert (V : 0 < Rabs v) by lra.
  assert (Ac : Rabs c = c) by (apply Rabs_pos_eq; lra).
  assert (D1 : Rabs (v / c) = Rabs v / c) by (unfold Rdiv; rewrite Rabs_mult, Rabs_inv, Ac; reflexivity).
  assert (D2 : Rabs v / 26 <= Rabs v / c <= Rabs v).
  { split; [apply Rmult_le_compat_l; [lra|]; apply Rinv_le_contravar; lra|]. apply Rmult_le_reg_r with c; [lra|]. unfold Rdiv. rewrite Rmult_assoc, Rinv_l by lra. nra. }
  assert (D3 : Rabs (v * c) = Rabs v * c) by (rewrite Rabs_mult, Ac; reflexivity).
  assert (F1 : forall d, Rabs d <= u64 -> Rabs v / 2 <= Rabs (v * (1 + d)) <= 2 * Rabs v).
  { intros d Hd. apply Rabs_le_inv in Hd. rewrite Rabs_mult, (Rabs_pos_eq (1 + d)) by lra. split; nra. }
  split.
  - destruct (rnd_rel (v / c)) as (d1 & H1 & E1); [rewrite D1; lra|].
    destruct (f_div_correct x (mmPerInch : T FNum) G GM) as [G1 V1]; [fold c; lra|fold v c; apply rnd_not_big; rewrite D1; lra|].
    fold v c in V1. rewrite E1 in V1. assert (R1 : v / c * (1 + d1) * c = v * (1 + d1)) by (field; lra).
    destruct (rnd_rel (v * (1 + d1))) as (d2 & H2 & E2); [specialize (F1 d1 H1); lra|].
    destruct (f_mul_correct (f_div x (mmPerInch : T FNum)) (mmPerInch : T FNum) G1 GM) as [_ V2].
    { rewrite V1. fold c. rewrite R1. apply rnd_not_big. specialize (F1 d1 H1). lra. }
    unfold InchToMM, MMToInch. change (@mul FNum) with f_mul. change (@div FNum) with f_div.
    match goal with |- Rabs (fval ?k - _) <= _ => replace (fval k) with (v * (1 + d1) * (1 + d2)) by (rewrite <- E2, <- R1, <- V1; symmetry; exact V2) end. apply two_errors; auto.
  - destruct (rnd_rel (v * c)) as (d1 & H1 & E1); [rewrite D3; nra|].
    destruct (f_mul_correct x (mmPerInch : T FNum) G GM) as [G1 V1]; [fold v c; apply rnd_not_big; rewrite D3; nra|].
    fold v c in V1. rewrite E1 in V1. assert (R1 : v * c * (1 + d1) / c = v * (1 + d1)) by (field; lra).
    destruct (rnd_rel (v * (1 + d1))) as (d2 & H2 & E2); [specialize (F1 d1 H1); lra|].
    destruct (f_div_correct (f_mul x (mmPerInch : T FNum)) (mmPerInch : T FNum) G1 GM) as [_ V2]; [fold c; lra| |].
    { rewrite V1. fold c. rewrite R1. apply rnd_not_big. specialize (F1 d1 H1). lra. }
    unfold InchToMM, MMToInch. change (@mul FNum) with f_mul. change (@div FNum) with f_div.
    match goal with |- Rabs (fval ?k - _) <= _ => replace (fval k) with (v * (1 + d1) * (1 + d2)) by (rewrite <- E2, <- R1, <- V1; symmetry; exact V2) end. apply two_errors; auto.
Qed.
Print Assumptions C44_float_round_trip.
Example C44_float_example : gofin (fz 3) /\ bpow radix2 (-1000) <= Rabs (fval (fz 3)) <= bpow radix2 1000.
Proof.
  split; [split; vm_compute; reflexivity|]. assert (E : fval (fz 3) = 3) by (change (fz 3) with (SpecFloat.S754_finite false 6755399441055744 (-51)); unfold fval; simpl; lra). rewrite E, Rabs_pos_eq by lra.
  split; [apply Rle_trans with (bpow radix2 0); [apply bpow_le; lia|simpl; lra]|apply Rle_trans with (bpow radix2 2); [simpl; lra|apply bpow_le; lia]].
Qed.

(** one inch is 25.4 mm, and in either unit the same length gives the same number *)
Theorem C44_inch : InchToMM (Fin 1 : T RNum) = Fin 25.4 /\
  forall u x, u = MilliMeters \/ u = Inches -> FromInch u (MMToInch (Fin x : T RNum)) = FromMM u (Fin x : T RNum).
Proof.
  split; [rewrite InchToMM_fin; f_equal; lra|]. intros u x [->| ->]; unfold FromInch, FromMM; cbn [u_abv MilliMeters Inches String.eqb Ascii.eqb Bool.eqb].
  - apply C44_round_trip.
  - reflexivity.
Qed.
Print Assumptions C44_inch.

(** ** unit names: the same word without regard to the case of A-Z, independent of the model *)
Definition sameLetter (a b : ascii) : Prop :=
  a = b \/ exists k, (k < 26)%nat /\ (a = ascii_of_nat (65 + k) /\ b = ascii_of_nat (97 + k)).
Fixpoint sameWord (s w : string) : Prop :=
  match s, w with
  | EmptyString, EmptyString => True
  | String a r, String b r' => sameLetter a b /\ sameWord r r'
  | _, _ => False
  end.
(** only bytes below 128 *)
Fixpoint asciiOnly (s : string) : Prop := match s with EmptyString => True | String a r => (nat_of_ascii a < 128)%nat /\ asciiOnly r end.

Lemma lower_letter a : (nat_of_ascii a < 128)%nat -> sameLetter a (lowerCh a).
Proof.
  intros H. unfold lowerCh. destruct (_ && _) eqn:E; [|left; reflexivity]. right. apply andb_prop in E as [E1 E2].
  apply N.leb_le in E1, E2. exists (nat_of_ascii a - 65)%nat. unfold nat_of_ascii. split; [lia|]. split.
  - rewrite <- (ascii_nat_embedding a) at 1. f_equal. unfold nat_of_ascii. lia.
  - unfold ascii_of_nat. f_equal. lia.
Qed.
Lemma letter_lower a b : sameLetter a b -> lowerCh b = b -> lowerCh a = b.
Proof. intros [->|(k & Hk & -> & ->)] H; [exact H|]. do 26 (destruct k as [|k]; [reflexivity|]). lia. Qed.
Lemma toLower_ascii s : asciiOnly s -> toLower s = lower s.
Proof.
  induction s as [|a [|b r] IH]; [reflexivity|reflexivity|]. intros [Ha H]. cbn [toLower lower] in *.
  assert (E : (N_of_ascii a =? 196)%N = false) by (apply N.eqb_neq; unfold nat_of_ascii in Ha; lia). rewrite E. cbn [andb]. f_equal. apply IH. exact H.
Qed.
Lemma lower_same s w : lower w = w -> (lower s = w <-> sameWord s w) \/ ~ asciiOnly s.
Proof.
  revert w. induction s as [|a r IH]; intros [|b w] L.
  - left. cbn. tauto.
  - left. cbn. split; [discriminate|tauto].
  - left. cbn. split; [discriminate|tauto].
  - cbn [lower] in L. injection L as Lb Lw. destruct (IH w Lw) as [I|I]; [|right; cbn; tauto].
    destruct (Nat.lt_ge_cases (nat_of_ascii a) 128) as [Ha|Ha]; [|right; cbn; intros [H _]; lia].
    left. cbn [lower sameWord]. split.
    + intros E. injection E as E1 E2. split; [rewrite <- E1; apply lower_letter; exact Ha|apply I; exact E2].
    + intros [H1 H2]. f_equal; [apply letter_lower; auto|apply I; exact H2].
Qed.
Lemma lower_word s w : asciiOnly s -> lower w = w -> String.eqb (toLower s) w = true <-> sameWord s w.
Proof. intros A L. rewrite String.eqb_eq, toLower_ascii by exact A. destruct (lower_same s w L) as [H|H]; [exact H|tauto]. Qed.

(** a known name gives its unit, whatever the default; any other gives the default *)
Theorem C44_names s d : asciiOnly s ->
  (sameWord s "in" \/ sameWord s "inches" -> MustUnits s d = Inches) /\
  (sameWord s "mm" \/ sameWord s "millimeters" -> MustUnits s d = MilliMeters) /\
  (~ sameWord s "in" -> ~ sameWord s "inches" -> ~ sameWord s "mm" -> ~ sameWord s "millimeters" -> MustUnits s d = d).
Proof.
  intros A. unfold MustUnits, NewUnits. pose proof (lower_word s "in" A eq_refl) as H1. pose proof (lower_word s "inches" A eq_refl) as H2.
  pose proof (lower_word s "mm" A eq_refl) as H3. pose proof (lower_word s "millimeters" A eq_refl) as H4.
  destruct (String.eqb (toLower s) "in") eqn:E1; cbn [orb].
  { split; [reflexivity|]. split; [|tauto]. apply String.eqb_eq in E1. rewrite E1 in H3, H4. cbn in H3, H4. intros [H|H]; [apply H3 in H|apply H4 in H]; discriminate. }
  destruct (String.eqb (toLower s) "inches") eqn:E2.
  { split; [reflexivity|]. split; [|tauto]. apply String.eqb_eq in E2. rewrite E2 in H3, H4. cbn in H3, H4. intros [H|H]; [apply H3 in H|apply H4 in H]; discriminate. }
  assert (N1 : ~ sameWord s "in") by (intros H; apply H1 in H; discriminate). assert (N2 : ~ sameWord s "inches") by (intros H; apply H2 in H; discriminate).
  destruct (String.eqb (toLower s) "mm") eqn:E3; cbn [orb]; [tauto|]. destruct (String.eqb (toLower s) "millimeters") eqn:E4; [tauto|].
  tauto.
Qed.
Print Assumptions C44_names.

(** and names that are not ASCII give the default, unless they spell one with U+0130, the dotted capital I *)
Theorem C44_not_ascii s d : ~ asciiOnly s -> (forall a b, s <> (a ++ String (ascii_of_nat 196) (String (ascii_of_nat 176) b))%string) -> MustUnits s d = d.
Proof.
  intros A D. assert (E : toLower s = lower s).
  { clear A. induction s as [|a [|b r] IH]; [reflexivity|reflexivity|]. cbn [toLower lower] in *.
    destruct ((N_of_ascii a =? 196)%N && (N_of_ascii b =? 176)%N) eqn:E.
    - exfalso. apply andb_prop in E as [E1 E2]. apply N.eqb_eq in E1, E2. apply (D "" r)%string. cbn [append].
      rewrite <- (ascii_N_embedding a), <- (ascii_N_embedding b), E1, E2. reflexivity.
    - f_equal. apply IH. intros x y H. apply (D (String a x) y). cbn. rewrite H. reflexivity. }
  assert (B : forall w, asciiOnly w -> lower s <> w).
  { intros w W Ew. apply A. clear -W Ew. subst w. induction s as [|a r IH]; [exact I|]. cbn [lower asciiOnly] in *. destruct W as [Wa Wr]. split; [|auto].
    unfold lowerCh in Wa. destruct (_ && _) eqn:E in Wa; [|exact Wa]. apply andb_prop in E as [_ E]. apply N.leb_le in E. unfold nat_of_ascii. lia. }
  unfold MustUnits, NewUnits. rewrite E.
  assert (F : forall w, asciiOnly w -> String.eqb (lower s) w = false) by (intros w W; apply String.eqb_neq, B, W).
  rewrite !F by (cbn; repeat split; repeat constructor). reflexivity.
Qed.
Print Assumptions C44_not_ascii.

Example C44_example : MustUnits "InCheS" MilliMeters = Inches /\ MustUnits "furlong" Inches = Inches /\ MustUnits "" MilliMeters = MilliMeters /\
  asciiOnly "InCheS" /\ sameWord "InCheS" "inches".
Proof.
  repeat split; try (cbn; lia); try (left; reflexivity); right; [exists 8%nat|exists 2%nat|exists 18%nat]; repeat split; lia.
Qed.
(** in floating point the way back is not always exact: 3 mm comes back as it was, 1 mm does not *)
Example C44_float : eqb (InchToMM (MMToInch (fz 3))) (fz 3) = true /\ eqb (InchToMM (MMToInch (fz 1))) (fz 1) = false.
Proof. split; vm_compute; reflexivity. Qed.
