(** C86, continued: the texts that are numbers, with fractions and exponents. *)
From Coq Require Import String Ascii List ZArith NArith Bool Arith Lia Reals Lra.
From Coq.Floats Require Import SpecFloat.
From Flocq Require Import Core.
From Verif Require Import Num NumLaws FloatNum PrecisionProofs IeeeProofs IeeeArith PathModel TextProofs SvgParse SvgProofs SvgElement DynModel DynRead Prop_C58 Prop_C86 Prop_C86c.
Import ListNotations.
Local Open Scope string_scope.

(** *** what a number looks like *)
Definition figs (l : list nat) : Prop := Forall (fun d => d < 10)%nat l.
Definition signText (neg : bool) (s : string) : Prop := if neg then s = "-" else s = "" \/ s = "+".
(** nothing, or a dot and figures *)
Definition fracText (f : list nat) (s : string) : Prop := (s = "" /\ f = []) \/ (s = "." ++ digits f /\ figs f).
(** nothing, or an e, a sign and at least one figure *)
Definition expText (k : Z) (s : string) : Prop := (s = "" /\ k = 0%Z) \/
  exists c neg sg l, (c = "e" \/ c = "E") /\ signText neg sg /\ figs l /\ l <> [] /\ s = c ++ sg ++ digits l /\ k = ((if neg then -1 else 1) * Z.of_N (num l))%Z.
(** the text [s] is (minus) [m] times ten to the power of [e] *)
Definition numeral (s : string) (neg : bool) (m : N) (e : Z) : Prop :=
  exists sg i f ft et k, s = sg ++ digits i ++ ft ++ et /\ signText neg sg /\ figs i /\ (i ++ f)%list <> [] /\ fracText f ft /\ expText k et /\
    m = num (i ++ f)%list /\ e = (k - Z.of_nat (List.length f))%Z.

Definition noDigit (s : string) : Prop := match s with String c _ => isDigit c = false | "" => True end.
Lemma digit_dch c : isDigit c = true -> exists d, (d < 10)%nat /\ c = ascii_of_nat (48 + d) /\ SvgParse.digitVal c = N.of_nat d.
Proof. intros H. apply digit_cases in H. repeat destruct H as [H|H]; subst c; [exists 0|exists 1|exists 2|exists 3|exists 4|exists 5|exists 6|exists 7|exists 8|exists 9]; (split; [lia|split; reflexivity]). Qed.
Lemma readDigits_inv s : forall v k v' k' r, readDigits s v k = (v', k', r) ->
  exists l, figs l /\ s = digits l ++ r /\ v' = fold_left (fun v d => 10 * v + N.of_nat d)%N l v /\ k' = (k + List.length l)%nat /\ noDigit r.
Proof.
  induction s as [|c s IH]; intros v k v' k' r H; cbn [readDigits] in H.
  - injection H as <- <- <-. exists []. repeat split; [constructor|cbn; lia].
  - destruct (isDigit c) eqn:D.
    + destruct (digit_dch c D) as (d & Hd & Ec & Ev). destruct (IH _ _ _ _ _ H) as (l & F & Es & E1 & E2 & ND). exists (d :: l). split; [constructor; assumption|].
      split; [cbn [digits fold_right append]; rewrite Ec; f_equal; exact Es|]. split; [|split; [cbn; lia|exact ND]].
      rewrite E1. cbn [fold_left]. rewrite Ev. f_equal. lia.
    + injection H as <- <- <-. exists []. repeat split; [constructor|cbn; lia|exact D].
Qed.
Lemma readDigits_to l : figs l -> forall rest v k, noDigit rest -> readDigits (digits l ++ rest) v k = (fold_left (fun v d => 10 * v + N.of_nat d)%N l v, (k + List.length l)%nat, rest).
Proof. intros F rest v k ND. rewrite digits_read by exact F. destruct rest as [|c r]; cbn [readDigits]; [reflexivity|]. cbn in ND. rewrite ND. reflexivity. Qed.

Definition unsigned (s : string) (m : N) (e : Z) : Prop :=
  exists i f ft et k, s = digits i ++ ft ++ et /\ figs i /\ (i ++ f)%list <> [] /\ fracText f ft /\ expText k et /\ m = num (i ++ f)%list /\ e = (k - Z.of_nat (List.length f))%Z.
Lemma expText_noDigit k s : expText k s -> noDigit s.
Proof. intros [[-> _]|(c & neg & sg & l & [-> | ->] & _ & _ & _ & -> & _)]; cbn; auto. Qed.
Lemma signed_exp neg sg l : signText neg sg -> figs l -> l <> [] -> (match sg ++ digits l with String "-" t => (true, t) | String "+" t => (false, t) | _ => (false, sg ++ digits l) end) = (neg, digits l).
Proof.
  intros S F NE. destruct neg; cbn in S; [subst; reflexivity|]. destruct S as [-> | ->]; [|reflexivity]. cbn [append]. destruct l as [|d l]; [congruence|].
  inversion F as [|? ? Hd]; subst. cbn [digits fold_right]. do 10 (destruct d as [|d]; [reflexivity|]). lia.
Qed.
Lemma unsigned_iff neg s m e : readUnsigned neg s = Some (NTdec neg m e) <-> unsigned s m e.
Proof.
  split.
  - intros H. unfold readUnsigned in H. destruct (readDigits s 0 0) as [[v1 k1] r1] eqn:E1. apply readDigits_inv in E1 as (i & Fi & Es & Ev & Ek & ND). cbn [Nat.add] in Ek.
    assert (FR : exists f ft, fracText f ft /\ exists r2, r1 = ft ++ r2 /\ (match r1 with String "." r => readDigits r v1 0 | _ => (v1, O, r1) end) = (num (i ++ f)%list, List.length f, r2)).
    { unfold num. rewrite Ev. destruct r1 as [|c r]; [exists [], ""; split; [left; auto|]; exists ""; rewrite app_nil_r; auto|].
      destruct (ascii_dec c ".") as [-> |NC].
      - destruct (readDigits r (fold_left (fun v d => 10 * v + N.of_nat d)%N i 0%N) 0) as [[v2 k2] r2] eqn:E2. apply readDigits_inv in E2 as (f & Ff & -> & -> & -> & ND2).
        exists f, ("." ++ digits f). split; [right; auto|]. exists r2. split; [reflexivity|]. rewrite fold_left_app. reflexivity.
      - exists [], "". split; [left; auto|]. exists (String c r). split; [reflexivity|]. rewrite app_nil_r.
        destruct c as [[] [] [] [] [] [] [] []]; try reflexivity. congruence. }
    destruct FR as (f & ft & HF & r2 & Er & EQ). rewrite EQ in H. clear EQ. destruct (Nat.eqb_spec (k1 + List.length f) 0) as [Z0|NZ]; [discriminate|].
    assert (NE : (i ++ f)%list <> []) by (intros E; apply NZ; rewrite Ek; destruct i, f; try discriminate E; reflexivity).
    destruct r2 as [|c r].
    + injection H as <- <-. exists i, f, ft, "", 0%Z. split; [rewrite Es, Er; reflexivity|]. repeat split; try assumption. left. auto.
    + destruct (Ascii.eqb c "e" || Ascii.eqb c "E")%bool eqn:CE; [|discriminate]. apply orb_prop in CE.
      assert (SG : exists eneg sg r', signText eneg sg /\ r = sg ++ r' /\ (match r with String "-" t => (true, t) | String "+" t => (false, t) | _ => (false, r) end) = (eneg, r')).
      { destruct r as [|x t]; [exists false, "", ""; cbn; auto|]. destruct (ascii_dec x "-") as [-> |N1]; [exists true, "-", t; cbn; auto|]. destruct (ascii_dec x "+") as [-> |N2]; [exists false, "+", t; cbn; auto|].
        exists false, "", (String x t). split; [cbn; auto|]. split; [reflexivity|]. destruct x as [[] [] [] [] [] [] [] []]; try reflexivity; congruence. }
      destruct SG as (eneg & sg & r' & HS & Er' & EQ). rewrite EQ in H. clear EQ. destruct (readDigits r' 0 0) as [[ev ek] er] eqn:E3. apply readDigits_inv in E3 as (l & Fl & El & Eev & Eek & ND3).
      cbn [Nat.add] in Eek. subst ek. destruct (Nat.eqb_spec (List.length l) 0) as [Z0|NL]; [discriminate|]. destruct er as [|x t]; [|discriminate]. injection H as <- <-.
      exists i, f, ft, (String c r), ((if eneg then -1 else 1) * Z.of_N (num l))%Z. split; [rewrite Es, Er; reflexivity|]. split; [exact Fi|]. split; [exact NE|]. split; [exact HF|].
      split; [|split; [reflexivity|]].
      * right. exists (String c ""), eneg, sg, l. split; [destruct CE as [CE|CE]; apply Ascii.eqb_eq in CE; subst c; auto|]. split; [exact HS|]. split; [exact Fl|]. split; [intros ->; cbn in NL; congruence|].
        split; [|reflexivity]. rewrite Er', El, app_empty_r. reflexivity.
      * fold (num l) in Eev. rewrite Eev. destruct eneg; lia.
  - intros (i & f & ft & et & k & -> & Fi & NE & HF & HE & -> & ->). unfold readUnsigned.
    assert (ND : noDigit (ft ++ et)). { destruct HF as [[-> ->]|[-> Ff]]; [cbn; eapply expText_noDigit; exact HE|reflexivity]. }
    rewrite (readDigits_to i Fi) by exact ND. cbn [Nat.add].
    assert (EQ : (match ft ++ et with String "." r => readDigits r (fold_left (fun v d => 10 * v + N.of_nat d)%N i 0%N) 0 | _ => (fold_left (fun v d => 10 * v + N.of_nat d)%N i 0%N, O, ft ++ et) end) = (num (i ++ f)%list, List.length f, et)).
    { unfold num. destruct HF as [[-> ->]|[-> Ff]].
      - rewrite app_nil_r. cbn [append]. destruct HE as [[-> _]|(c & neg' & sg & l & [-> | ->] & _ & _ & _ & -> & _)]; reflexivity.
      - cbn [append]. rewrite (readDigits_to f Ff) by (eapply expText_noDigit; exact HE). rewrite fold_left_app. reflexivity. }
    rewrite EQ. clear EQ. destruct (Nat.eqb_spec (List.length i + List.length f) 0) as [Z0|NZ]; [exfalso; apply NE; destruct i, f; try discriminate Z0; reflexivity|].
    destruct HE as [[-> ->]|(c & neg' & sg & l & Hc & HS & Fl & NL & -> & ->)]; [reflexivity|].
    assert (G : forall x, x = "e"%char \/ x = "E"%char -> (if (Ascii.eqb x "e" || Ascii.eqb x "E")%bool then
          let '(eneg, r') := match sg ++ digits l with String "-" t => (true, t) | String "+" t => (false, t) | _ => (false, sg ++ digits l) end in
          let '(ev, ek, er) := readDigits r' 0 0 in
          if Nat.eqb ek 0 then None else match er with "" => Some (NTdec neg (num (i ++ f)%list) ((if eneg then - Z.of_N ev else Z.of_N ev) - Z.of_nat (List.length f))) | _ => None end
        else None) = Some (NTdec neg (num (i ++ f)%list) ((if neg' then -1 else 1) * Z.of_N (num l) - Z.of_nat (List.length f)))).
    { intros x Hx. assert (X : (Ascii.eqb x "e" || Ascii.eqb x "E")%bool = true) by (destruct Hx as [-> | ->]; reflexivity). rewrite X, (signed_exp neg' sg l HS Fl NL).
      rewrite <- (app_empty_r (digits l)), (readDigits_to l Fl) by exact I. cbn [Nat.add]. destruct (Nat.eqb_spec (List.length l) 0) as [Z0|_]; [destruct l; [congruence|discriminate Z0]|].
      fold (num l). do 2 f_equal. destruct neg'; lia. }
    destruct Hc as [-> | ->]; cbn [append]; apply G; auto.
Qed.
Lemma unsigned_neg neg s n m e : readUnsigned neg s = Some (NTdec n m e) -> n = neg.
Proof.
  unfold readUnsigned. repeat match goal with |- context[let '(_, _) := ?x in _] => destruct x as [? ?] | |- context[match ?x with _ => _ end] => destruct x end; intros H; try discriminate H; injection H; auto.
Qed.
Lemma unsigned_first s m e : unsigned s m e -> exists c r, s = String c r /\ (isDigit c = true \/ c = "."%char).
Proof.
  intros (i & f & ft & et & k & -> & Fi & NE & HF & _). destruct i as [|d i].
  - destruct HF as [[-> ->]|[-> _]]; [destruct (NE eq_refl)|]. cbn. eauto.
  - inversion Fi; subst. cbn [digits fold_right append]. do 2 eexists. split; [reflexivity|]. left. apply dch_digit. assumption.
Qed.
(** The texts that are read as finite numbers, and as which: a sign or none, figures with or without a dot among them, and an exponent or none. *)
Theorem C86_numeral s neg m e : readNumber s = Some (NTdec neg m e) <-> numeral s neg m e.
Proof.
  assert (W : forall t m e, unsigned t m e -> isInfWord (lower t) = false /\ String.eqb (lower t) "nan" = false).
  { intros t m' e' U. destruct (unsigned_first t m' e' U) as (c & r & -> & [Hc | ->]); [apply lower_digit_not_word; exact Hc|split; reflexivity]. }
  split.
  - intros H. assert (G : exists sg t, s = sg ++ t /\ signText neg sg /\ readUnsigned neg t = Some (NTdec neg m e)).
    { assert (D : forall b t, readUnsigned b t = Some (NTdec neg m e) -> neg = b) by (intros b t Q; apply unsigned_neg in Q; exact Q).
      destruct s as [|c r]; [discriminate|]. destruct (ascii_dec c "-") as [-> |N1]; [|destruct (ascii_dec c "+") as [-> |N2]].
      - cbn [readNumber] in H. destruct (isInfWord (lower r)); [discriminate|]. pose proof (D _ _ H) as ->. exists "-", r. cbn. auto.
      - cbn [readNumber] in H. destruct (isInfWord (lower r)); [discriminate|]. pose proof (D _ _ H) as ->. exists "+", r. cbn. auto.
      - assert (Q : readNumber (String c r) = (if isInfWord (lower (String c r)) then Some (NTspecial (FTinf false)) else if String.eqb (lower (String c r)) "nan" then Some (NTspecial FTnan) else readUnsigned false (String c r))).
        { unfold readNumber. destruct c as [[] [] [] [] [] [] [] []]; try reflexivity; congruence. }
        rewrite Q in H. destruct (isInfWord _); [discriminate|]. destruct (String.eqb _ "nan"); [discriminate|]. pose proof (D _ _ H) as ->. exists "", (String c r). cbn. auto. }
    destruct G as (sg & t & -> & HS & U). apply unsigned_iff in U as (i & f & ft & et & k & -> & R). exists sg, i, f, ft, et, k. split; [reflexivity|]. split; [exact HS|]. exact R.
  - intros (sg & i & f & ft & et & k & -> & HS & R). assert (U : unsigned (digits i ++ ft ++ et) m e) by (exists i, f, ft, et, k; split; [reflexivity|exact R]). clear R.
    set (t := digits i ++ ft ++ et) in *. clearbody t. destruct (W t m e U) as [W1 W2]. pose proof (proj2 (unsigned_iff neg t m e) U) as UR.
    assert (PL : readNumber t = readUnsigned false t).
    { destruct (unsigned_first t m e U) as (c & r & -> & Hc). transitivity (if isInfWord (lower (String c r)) then Some (NTspecial (FTinf false)) else if String.eqb (lower (String c r)) "nan" then Some (NTspecial FTnan) else readUnsigned false (String c r)).
      - assert (NS : c <> "-"%char /\ c <> "+"%char). { destruct Hc as [Hc | ->]; [|split; discriminate]. apply digit_cases in Hc. repeat destruct Hc as [Hc|Hc]; subst; split; discriminate. }
        destruct NS. unfold readNumber. destruct c as [[] [] [] [] [] [] [] []]; try reflexivity; congruence.
      - rewrite W1, W2. reflexivity. }
    destruct neg; cbn in HS; [subst sg; cbn [append readNumber]; rewrite W1; exact UR|]. destruct HS as [-> | ->]; cbn [append].
    + rewrite PL. exact UR.
    + cbn [readNumber]. rewrite W1. exact UR.
Qed.

Lemma digits_solid l : figs l -> every (fun c => negb (isBlank c)) (digits l) = true.
Proof. intros F. rewrite <- all_every. eapply all_ch_impl; [|apply digits_chars; exact F]. intros c. destruct c as [[] [] [] [] [] [] [] []]; vm_compute; intros H; try reflexivity; discriminate H. Qed.
Lemma every_app P a b : every P (a ++ b) = (every P a && every P b)%bool.
Proof. rewrite <- !all_every. apply all_ch_app. Qed.
Lemma sign_solid neg sg : signText neg sg -> every (fun c => negb (isBlank c)) sg = true.
Proof. destruct neg; cbn; [intros ->; reflexivity|intros [-> | ->]; reflexivity]. Qed.
Lemma numeral_solid s neg m e : numeral s neg m e -> every (fun c => negb (isBlank c)) s = true.
Proof.
  intros (sg & i & f & ft & et & k & -> & HS & Fi & _ & HF & HE & _). rewrite !every_app, (sign_solid _ _ HS), (digits_solid _ Fi).
  replace (every (fun c => negb (isBlank c)) ft) with true; [|symmetry; destruct HF as [[-> _]|[-> Ff]]; [reflexivity|rewrite every_app, (digits_solid _ Ff); reflexivity]].
  destruct HE as [[-> _]|(c & neg' & sg' & l & [-> | ->] & HS' & Fl & _ & -> & _)]; [reflexivity| |]; rewrite !every_app, (sign_solid _ _ HS'), (digits_solid _ Fl); reflexivity.
Qed.
(** Such a text, with blanks around it, is read as the nearest number there is, or refused if it is too large. *)
Theorem C86_exponent s neg p e b1 b2 : blanks b1 -> blanks b2 -> numeral s neg (Npos p) e -> let v := ((if neg then -1 else 1) * IZR (Zpos p) * powerRZ 10 e)%R in
  ((Rabs (rnd v) < bpow radix2 1024)%R -> exists x, number (VStr (b1 ++ s ++ b2)) = Some x /\ gofin x /\ fval x = rnd v) /\
  ((bpow radix2 1024 <= Rabs (rnd v))%R -> number (VStr (b1 ++ s ++ b2)) = None).
Proof.
  intros B1 B2 HN v. assert (E : number (VStr (b1 ++ s ++ b2)) = f_ofdec neg (Npos p) e).
  { unfold ToFloat. rewrite trim_around; [|eapply numeral_solid; exact HN|assumption|assumption]. unfold SvgParse.ToFloat64. rewrite (proj2 (C86_numeral s neg (Npos p) e) HN). reflexivity. }
  pose proof (f_ofdec_correct neg p e) as C. change (dval neg (N.pos p) e) with v in C. rewrite E. split; intros H.
  - rewrite Rlt_bool_true in C by exact H. destruct C as (r & E1 & E2 & E3 & _ & E4). exists r. split; [exact E1|]. split; [split; assumption|exact E4].
  - rewrite Rlt_bool_false in C by exact H. exact C.
Qed.
Print Assumptions C86_numeral. Print Assumptions C86_exponent.

Example C86_numeral_example : numeral "-12.5e+2" true 125 1 /\ numeral ".5E-3" false 5 (-4) /\ readNumber "1e" = None /\ readNumber "." = None /\ readNumber "1_000" = None /\ readNumber "e5" = None.
Proof.
  split; [apply C86_numeral; reflexivity|]. split; [apply C86_numeral; reflexivity|]. repeat split.
Qed.
Example C86_exponent_example : numeral "25e-1" false 25 (-1) /\ number (VStr (" " ++ "25e-1" ++ "")) = Some (S754_finite false 5629499534213120 (-51)) /\ number (VStr "25e400") = None.
Proof. split; [apply C86_numeral; reflexivity|]. split; vm_compute; reflexivity. Qed.
