(** C86, continued: numbers with a fraction are read as they were put in, and integers as numbers. *)
From Coq Require Import String Ascii List ZArith NArith Bool Arith Lia Reals Lra Decimal DecimalString DecimalPos.
From Coq.Floats Require Import SpecFloat.
From Flocq Require Import Core.
From Flocq.IEEE754 Require BinarySingleNaN.
From Verif Require Import Num NumLaws FloatNum PrecisionProofs IeeeProofs IeeeArith PathModel SvgParse SvgProofs DynModel DynRead Prop_C86 Prop_C94b.
Import ListNotations.
Local Open Scope string_scope.

(** the number that is read from a value *)
Notation number := (@ToFloat FNum ParamModel.floatOfZ (fun x => x)).

Lemma readDigits_uint d : forall v k, exists n, readDigits (NilEmpty.string_of_uint d) v k = (Z.to_N (value (Z.of_N v) d), (k + n)%nat, "") /\ (d <> Nil -> n <> 0%nat).
Proof.
  assert (S : forall d' c x, (forall v k, exists n, readDigits (NilEmpty.string_of_uint d') v k = (Z.to_N (value (Z.of_N v) d'), (k + n)%nat, "") /\ (d' <> Nil -> n <> 0%nat)) ->
    isDigit c = true -> SvgParse.digitVal c = x -> forall v k, exists n, readDigits (String c (NilEmpty.string_of_uint d')) v k = (Z.to_N (value (Z.of_N v * 10 + Z.of_N x) d'), (k + n)%nat, "") /\ n <> 0%nat).
  { intros d' c x IH HC HX v k. destruct (IH (v * 10 + x)%N (S k)) as (n & E & _). exists (S n). cbn [readDigits]. rewrite HC, HX, E. split; [|lia].
    rewrite N2Z.inj_add, N2Z.inj_mul. change (Z.of_N 10) with 10%Z. replace (k + S n)%nat with (S k + n)%nat by lia. reflexivity. }
  induction d as [|d IH|d IH|d IH|d IH|d IH|d IH|d IH|d IH|d IH|d IH]; intros v k; [exists 0%nat; cbn; rewrite N2Z.id, Nat.add_0_r; split; [reflexivity|congruence]|..];
    cbn [NilEmpty.string_of_uint value].
  all: match goal with |- context[readDigits (String ?c _) _ _] => destruct (S _ c _ IH eq_refl eq_refl v k) as (n & E & Hn) end; exists n; split; [|intros _; exact Hn]; rewrite E; try reflexivity.
  cbn [Z.of_N]. rewrite Z.add_0_r. reflexivity.
Qed.
Lemma readUnsigned_uint neg d : d <> Nil -> readUnsigned neg (NilEmpty.string_of_uint d) = Some (NTdec neg (Z.to_N (value 0 d)) 0).
Proof.
  intros H. unfold readUnsigned. destruct (readDigits_uint d 0%N 0) as (n & E & Hn). specialize (Hn H). rewrite E. cbn [Nat.add]. destruct n; [lia|]. rewrite Nat.add_0_r. reflexivity.
Qed.
Lemma readNumber_decimal z : readNumber (decimal z) = Some (NTdec (z <? 0)%Z (Z.abs_N z) 0).
Proof.
  unfold decimal. destruct z as [|p|p]; [reflexivity| |]; destruct (positive_text p) as (d & E & H0 & HN & V); cbn [Z.to_int NilZero.string_of_int]; rewrite E.
  - assert (Q : readNumber (NilEmpty.string_of_uint d) = readUnsigned false (NilEmpty.string_of_uint d)) by (destruct d; try congruence; reflexivity).
    rewrite Q, readUnsigned_uint, V by exact HN. reflexivity.
  - assert (Q : readNumber (String "-" (NilEmpty.string_of_uint d)) = readUnsigned true (NilEmpty.string_of_uint d)) by (destruct d; try congruence; reflexivity).
    rewrite Q, readUnsigned_uint, V by exact HN. reflexivity.
Qed.
Lemma read_decimal z : int64 z -> @SvgParse.ToFloat64 FNum (decimal z) = Some (ParamModel.floatOfZ z).
Proof.
  intros H. unfold SvgParse.ToFloat64. rewrite readNumber_decimal. cbn [Num.ofdec FNum]. destruct (floatOfZ_correct z H) as [[_ F] _].
  destruct z as [|p|p]; [reflexivity| |]; cbn [Z.abs_N Z.ltb Z.compare f_ofdec Z.to_N]; change (10 ^ 0)%N with 1%N; rewrite N.mul_1_r;
    unfold ParamModel.floatOfZ in *; change f64_prec with 53%Z; change f64_emax with 1024%Z.
  - destruct (binary_normalize 53 1024 (Zpos p) 0 false); try reflexivity; discriminate F.
  - change (binary_normalize 53 1024 (Zneg p) 0 true) with (binary_normalize 53 1024 (Zneg p) 0 false). destruct (binary_normalize 53 1024 (Zneg p) 0 false); try reflexivity; discriminate F.
Qed.

Lemma all_every P s : TextProofs.all_ch P s = every P s.
Proof. induction s; cbn; auto. Qed.
(** An integer of 64 bits, as a value or as a text with blanks around it, is read as the nearest number there is, and as itself up to 2^53. *)
Theorem C86_number_of_integer z b1 b2 : int64 z -> blanks b1 -> blanks b2 -> exists x, number (VInt z) = Some x /\ number (VStr (b1 ++ decimal z ++ b2)) = Some x /\
  gofin x /\ fval x = rnd (IZR z) /\ ((Z.abs z <= 2 ^ 53)%Z -> fval x = IZR z).
Proof.
  intros H B1 B2. exists (ParamModel.floatOfZ z). destruct (floatOfZ_correct z H) as [G E]. split; [|split; [|split; [exact G|split; [exact E|intros B; rewrite E; apply rnd_small; exact B]]]].
  - unfold ToFloat, ToInt64. do 2 f_equal. unfold int64, wrap64, minInt64 in *. rewrite Z.mod_small by lia. lia.
  - unfold ToFloat. rewrite trim_around; [|eapply every_impl; [exact inDecimal_notBlank|apply decimal_chars]|assumption|assumption]. apply read_decimal. exact H.
Qed.

(** A decimal number, with any number of decimals and with blanks around it, is read as the nearest number there is, or refused if it is too large. *)
Theorem C86_number_of_text (n : nat) (s : bool) (p : positive) (b1 b2 : string) : blanks b1 -> blanks b2 -> let v := ((if s then -1 else 1) * IZR (Zpos p) / 10 ^ n)%R in
  ((Rabs (rnd v) < bpow radix2 1024)%R -> exists x, number (VStr (b1 ++ render n (FTdec s (Npos p)) ++ b2)) = Some x /\ gofin x /\ fval x = rnd v) /\
  ((bpow radix2 1024 <= Rabs (rnd v))%R -> number (VStr (b1 ++ render n (FTdec s (Npos p)) ++ b2)) = None).
Proof.
  intros B1 B2 v. assert (EV : dval s (Npos p) (- Z.of_nat n) = v).
  { unfold dval, v. cbn [Z.of_N]. destruct n as [|m]; [cbn; lra|]. change (- Z.of_nat (S m))%Z with (Z.neg (Pos.of_succ_nat m)). unfold powerRZ. rewrite SuccNat2Pos.id_succ. reflexivity. }
  assert (E : number (VStr (b1 ++ render n (FTdec s (Npos p)) ++ b2)) = f_ofdec s (Npos p) (- Z.of_nat n)).
  { unfold ToFloat. rewrite trim_around; [|eapply every_impl; [|rewrite <- all_every; apply render_dec_chars]|assumption|assumption].
    - unfold SvgParse.ToFloat64. rewrite readNumber_render. reflexivity.
    - intros c. destruct c as [[] [] [] [] [] [] [] []]; vm_compute; intros H; try reflexivity; discriminate H. }
  pose proof (f_ofdec_correct s p (- Z.of_nat n)) as C. rewrite EV in C. rewrite E. split; intros H.
  - rewrite Rlt_bool_true in C by exact H. destruct C as (r & E1 & E2 & E3 & _ & E4). exists r. split; [exact E1|]. split; [split; assumption|exact E4].
  - rewrite Rlt_bool_false in C by exact H. exact C.
Qed.
Print Assumptions C86_number_of_integer. Print Assumptions C86_number_of_text.
Example C86_number_of_integer_example : int64 (-42) /\ blanks " " /\ number (VStr (" " ++ decimal (-42) ++ "")) = number (VInt (-42)) /\ number (VFloat (ParamModel.floatOfZ (-42))) = number (VInt (-42)).
Proof. split; [unfold int64; lia|]. split; [reflexivity|]. split; vm_compute; reflexivity. Qed.
(** -12.50 is -25/2 *)
Example C86_number_of_text_example : render 2 (FTdec true 1250) = "-12.50" /\ number (VStr ("  " ++ render 2 (FTdec true 1250) ++ " ")) = Some (S754_finite true 7036874417766400 (-49)).
Proof. split; vm_compute; reflexivity. Qed.

(** *** numbers that are not finite *)
(** The words that are read as such numbers, in small letters. *)
Definition specialWords : list (string * ftext) :=
  [("inf", FTinf false); ("+inf", FTinf false); ("-inf", FTinf true); ("infinity", FTinf false); ("+infinity", FTinf false); ("-infinity", FTinf true); ("nan", FTnan)].
Lemma readUnsigned_plain neg s t : readUnsigned neg s <> Some (NTspecial t).
Proof.
  unfold readUnsigned. repeat match goal with
  | |- context[let '(_, _) := ?x in _] => destruct x as [? ?]
  | |- context[match ?x with _ => _ end] => destruct x
  end; discriminate.
Qed.
Lemma lower_cons c r : lower (String c r) = String (lowerCh c) (lower r). Proof. reflexivity. Qed.
Lemma infWord_iff s : isInfWord s = true <-> s = "inf" \/ s = "infinity".
Proof. unfold isInfWord. rewrite orb_true_iff, !String.eqb_eq. reflexivity. Qed.
(** A text is read as an infinity or as not a number exactly if it is one of these words, in small or capital letters. *)
Theorem C86_words s t : readNumber s = Some (NTspecial t) <-> In (lower s, t) specialWords.
Proof.
  assert (SG : forall c (r : string), lowerCh c = "-"%char <-> c = "-"%char) by (intros [[] [] [] [] [] [] [] []] _; split; intros H; try reflexivity; try discriminate H).
  assert (SP : forall c (r : string), lowerCh c = "+"%char <-> c = "+"%char) by (intros [[] [] [] [] [] [] [] []] _; split; intros H; try reflexivity; try discriminate H).
  assert (PL : forall s, (forall r, s <> String "-" r) -> (forall r, s <> String "+" r) -> readNumber s = (if isInfWord (lower s) then Some (NTspecial (FTinf false)) else if String.eqb (lower s) "nan" then Some (NTspecial FTnan) else readUnsigned false s)).
  { clear. intros [|c r] H1 H2; [reflexivity|]. unfold readNumber. destruct c as [[] [] [] [] [] [] [] []]; try reflexivity; [destruct (H2 r eq_refl)|destruct (H1 r eq_refl)]. }
  destruct s as [|c r]; [cbn; intuition discriminate|].
  destruct (ascii_dec c "-") as [->|C1]; [|destruct (ascii_dec c "+") as [->|C2]].
  - cbn [readNumber]. rewrite lower_cons. change (lowerCh "-") with "-"%char. destruct (isInfWord (lower r)) eqn:I.
    + apply infWord_iff in I. destruct I as [-> | ->]; cbn; split; [intros E; injection E as <-; auto|intuition congruence|intros E; injection E as <-; tauto|intuition congruence].
    + split; [intros E; destruct (readUnsigned_plain _ _ _ E)|]. cbn. intros H. exfalso. assert (isInfWord (lower r) = true); [|congruence]. apply infWord_iff. intuition congruence.
  - cbn [readNumber]. rewrite lower_cons. change (lowerCh "+") with "+"%char. destruct (isInfWord (lower r)) eqn:I.
    + apply infWord_iff in I. destruct I as [-> | ->]; cbn; split; [intros E; injection E as <-; auto|intuition congruence|intros E; injection E as <-; tauto|intuition congruence].
    + split; [intros E; destruct (readUnsigned_plain _ _ _ E)|]. cbn. intros H. exfalso. assert (isInfWord (lower r) = true); [|congruence]. apply infWord_iff. intuition congruence.
  - rewrite PL by (intros ? E; injection E as -> _; congruence). assert (L1 : forall q, lower (String c r) <> String "-" q) by (intros q E; rewrite lower_cons in E; injection E as E _; apply (SG c r) in E; congruence).
    assert (L2 : forall q, lower (String c r) <> String "+" q) by (intros q E; rewrite lower_cons in E; injection E as E _; apply (SP c r) in E; congruence).
    destruct (isInfWord (lower (String c r))) eqn:I.
    + apply infWord_iff in I. destruct I as [I|I]; rewrite I; cbn; split; [intros E; injection E as <-; auto|intuition congruence|intros E; injection E as <-; tauto|intuition congruence].
    + destruct (String.eqb_spec (lower (String c r)) "nan") as [E|NE].
      * rewrite E. cbn. split; [intros Q; injection Q as <-; tauto|intuition congruence].
      * split; [intros E; destruct (readUnsigned_plain _ _ _ E)|]. set (w := lower (String c r)) in *. clearbody w. intros H. exfalso. assert (NI : w <> "inf" /\ w <> "infinity") by (split; intros Q; rewrite Q in I; discriminate I).
        cbn in H. repeat destruct H as [H|H]; try (injection H as H1 H2); try (symmetry in H1; first [now apply (proj1 NI)|now apply (proj2 NI)|now apply NE|now apply (L1 _ H1)|now apply (L2 _ H1)]). exact H.
Qed.
Print Assumptions C86_words.
Example C86_words_example : readNumber "-Infinity" = Some (NTspecial (FTinf true)) /\ In (lower "-Infinity", FTinf true) specialWords /\ readNumber "infinite" = None /\ readNumber "-NaN" = None.
Proof. repeat split; try reflexivity. cbn. tauto. Qed.
