(** C26, continued: the text of the transform. *)
From Coq Require Import String Ascii List ZArith Bool Reals Lra Lia.
From Verif Require Import Num FloatNum RealNum PathModel SvgParse TextProofs SvgProofs PlanSet PrecisionProofs Witness Prop_C26 Prop_C69.
Import ListNotations.
Local Open Scope R_scope.
Local Open Scope string_scope.

(** *** what an SVG viewer makes of the text of a transform attribute (SVG 1.1, section 7.6): each entry with its numbers in brackets, the entries separated by a blank and the
    last one applied first *)
Definition numberIs (s : string) (x : R) : Prop := all_ch decCh s = true /\ ToFloat64 (N := RNum) s = Some (Fin x).
Inductive viewed : string -> (R * R -> R * R) -> Prop :=
| v_move a b x y : numberIs a x -> numberIs b y -> viewed ("translate(" ++ a ++ " " ++ b ++ ")") (fun q => (fst q + x, snd q + y)%R)
| v_turn a b x y : numberIs a x -> numberIs b y -> viewed ("rotate(90 " ++ a ++ " " ++ b ++ ")") (fun q => (x - (snd q - y), y + (fst q - x))%R)
| v_both s t f g : viewed s f -> viewed t g -> viewed (s ++ " " ++ t) (fun q => f (g q)).

Lemma fmt_number x : exists y, numberIs (fmt (N := RNum) 3 (Fin x)) y /\ Rabs (y - x) <= 1 / 2000.
Proof.
  destruct (readback_half 3 x) as (y & E & B). exists y. split.
  - split; [apply render_dec_chars|]. rewrite ToFloat64_fmt. exact E.
  - rewrite Rabs_minus_sym. eapply Rle_trans; [exact B|]. cbn [pow]. lra.
Qed.

(** The text written for a part of height [h] at (X, Y) is read as the move of the part to that place, or as the quarter turn after which its left upper corner is that
    place, each coordinate to within 0.0005 of it. *)
Theorem C26_text (O : Type) (o : O) (w h X Y : R) (rot : bool) : exists f dx dy, viewed (transformText (@mkRenderable RNum O (o, Fin w, Fin h) (mkPt (Fin X : T RNum) (Fin Y : T RNum)) rot)) f /\
  Rabs dx <= 1 / 2000 /\ Rabs dy <= 1 / 2000 /\ forall a b, f (a, b) = if rot then (X + h - b + dx, Y + a + dy) else (X + a + dx, Y + b + dy).
Proof.
  unfold transformText. destruct rot; cbn [drawTransforms r_part r_rot r_pos map opText String.concat px py].
  - change (add (n:=RNum) (Fin X) (Fin h)) with (Fin (X + h)). destruct (fmt_number (X + h)) as (x & NX & BX), (fmt_number Y) as (y & NY & BY).
    do 3 eexists. split; [apply v_both; [apply (v_turn _ _ x y NX NY)|apply (v_move _ _ x y NX NY)]|]. split; [exact BX|]. split; [exact BY|]. intros a b. cbn. f_equal; ring.
  - destruct (fmt_number X) as (x & NX & BX), (fmt_number Y) as (y & NY & BY).
    do 3 eexists. split; [apply (v_move _ _ x y NX NY)|]. split; [exact BX|]. split; [exact BY|]. intros a b. cbn. f_equal; ring.
Qed.
Print Assumptions C26_text.
(** the part of C26_example_text: rotate(90 11.000 2.000) translate(11.000 2.000) takes the corner (20, 10) to (1, 22) *)
Lemma three z s : (0 <= z)%Z -> s = render 3 (FTdec false (Z.to_N (z * 1000))) -> numberIs s (IZR z).
Proof.
  intros Hz ->. split; [apply render_dec_chars|]. unfold ToFloat64. rewrite readNumber_render. cbn [ofdec RNum er_ofdec]. unfold er_ofdec. do 2 f_equal. rewrite Z2N.id by lia. rewrite mult_IZR. change (powerRZ 10 (- Z.of_nat 3)) with (/ (10 ^ 3))%R. cbn [pow]. field.
Qed.
Example C26_text_example : exists f, viewed "rotate(90 11.000 2.000) translate(11.000 2.000)" f /\ f (20, 10) = (1, 22).
Proof.
  assert (A : numberIs "11.000" 11) by (apply (three 11); [lia|reflexivity]). assert (B : numberIs "2.000" 2) by (apply (three 2); [lia|reflexivity]).
  eexists. split; [apply (v_both "rotate(90 11.000 2.000)" "translate(11.000 2.000)"); [apply (v_turn "11.000" "2.000" 11 2 A B)|apply (v_move "11.000" "2.000" 11 2 A B)]|]. cbn. f_equal; lra.
Qed.
