(** Facts about printed numbers: the characters that occur in them, and that the printed text
    determines what was printed. *)
From Coq Require Import String Ascii List ZArith NArith Bool Lia DecimalString DecimalN DecimalFacts Decimal.
From Verif Require Import Num PathModel SvgParse.
Import ListNotations.
Local Open Scope string_scope.

(** ** strings without a given character *)
Fixpoint all_ch (p : ascii -> bool) (s : string) : bool :=
  match s with "" => true | String c r => p c && all_ch p r end.

Lemma all_ch_app p s t : all_ch p (s ++ t) = all_ch p s && all_ch p t.
Proof. induction s as [|c r IH]; cbn; [reflexivity|]. rewrite IH, andb_assoc. reflexivity. Qed.

Lemma all_ch_impl (p q : ascii -> bool) s : (forall c, p c = true -> q c = true) ->
  all_ch p s = true -> all_ch q s = true.
Proof.
  intros H. induction s as [|c r IH]; cbn; auto. intros E. apply andb_prop in E as [E1 E2].
  rewrite (H _ E1), IH; auto.
Qed.

Lemma app_assoc_s (a b c : string) : (a ++ b) ++ c = a ++ (b ++ c).
Proof. induction a as [|x r IH]; cbn; [reflexivity|f_equal; exact IH]. Qed.

Lemma app_nil_s (a : string) : a ++ "" = a.
Proof. induction a as [|x r IH]; cbn; [reflexivity|f_equal; exact IH]. Qed.

Definition isnt (c x : ascii) : bool := negb (Ascii.eqb x c).

(** text is determined up to the first occurrence of a separator *)
Lemma split_at c : forall s1 s2 t1 t2,
  all_ch (isnt c) s1 = true -> all_ch (isnt c) s2 = true ->
  s1 ++ String c t1 = s2 ++ String c t2 -> s1 = s2 /\ t1 = t2.
Proof.
  unfold isnt. induction s1 as [|a r IH]; intros [|b r2] t1 t2 H1 H2 E; cbn in *.
  - inversion E; auto.
  - inversion E; subst. rewrite Ascii.eqb_refl in H2. discriminate.
  - inversion E; subst. rewrite Ascii.eqb_refl in H1. discriminate.
  - inversion E; subst. apply andb_prop in H1 as [_ H1]. apply andb_prop in H2 as [_ H2].
    destruct (IH _ _ _ H1 H2 H3) as [-> ->]. auto.
Qed.

Lemma app_inv_head_s (s t1 t2 : string) : s ++ t1 = s ++ t2 -> t1 = t2.
Proof. induction s as [|c r IH]; cbn; auto. intros E. inversion E. auto. Qed.

(** ** digits *)
Lemma isDigit_digit_char d : (d < 10)%N -> isDigit (digit_char d) = true.
Proof.
  intros H. assert (Hd : In d [0;1;2;3;4;5;6;7;8;9]%N) by (cbn; lia).
  cbn in Hd. repeat (destruct Hd as [<-|Hd]; [reflexivity|]). contradiction.
Qed.
Lemma digitVal_digit_char d : (d < 10)%N -> digitVal (digit_char d) = d.
Proof.
  intros H. assert (Hd : In d [0;1;2;3;4;5;6;7;8;9]%N) by (cbn; lia).
  cbn in Hd. repeat (destruct Hd as [<-|Hd]; [reflexivity|]). contradiction.
Qed.

Lemma digits_pad_app n : forall m acc, digits_pad n m acc = digits_pad n m "" ++ acc.
Proof.
  induction n as [|n IH]; intros m acc; cbn [digits_pad]; [reflexivity|].
  rewrite (IH _ (String _ acc)), (IH _ (String _ "")), app_assoc_s. reflexivity.
Qed.

Lemma digits_pad_digits n : forall m, all_ch isDigit (digits_pad n m "") = true.
Proof.
  induction n as [|n IH]; intros m; cbn [digits_pad]; [reflexivity|].
  rewrite digits_pad_app, all_ch_app, IH. cbn. rewrite isDigit_digit_char; [reflexivity|].
  apply N.mod_lt. lia.
Qed.

Lemma uint_string_digits d : all_ch isDigit (NilEmpty.string_of_uint d) = true.
Proof. induction d; cbn; auto. Qed.

Lemma digits_int_NilEmpty m : digits_int m = NilEmpty.string_of_uint (N.to_uint m).
Proof.
  unfold digits_int, NilZero.string_of_uint. destruct (N.to_uint m) eqn:E; try reflexivity.
  exfalso. destruct m; cbn in E; [discriminate|].
  pose proof (DecimalPos.Unsigned.to_uint_nonnil p) as H. apply H. exact E.
Qed.

Lemma digits_int_digits m : all_ch isDigit (digits_int m) = true.
Proof. rewrite digits_int_NilEmpty. apply uint_string_digits. Qed.

Lemma digits_int_nonempty m : digits_int m <> "".
Proof.
  unfold digits_int, NilZero.string_of_uint. destruct (N.to_uint m) eqn:E; discriminate.
Qed.

(** reading digits back *)
Definition dstop (s : string) : Prop := match s with "" => True | String c _ => isDigit c = false end.

Lemma readDigits_stop s v k : dstop s -> readDigits s v k = (v, k, s).
Proof. destruct s as [|c r]; cbn; [reflexivity|]. intros ->. reflexivity. Qed.

Lemma readDigits_pad n : forall m v k rest,
  readDigits (digits_pad n m "" ++ rest) v k =
  readDigits rest (v * 10 ^ N.of_nat n + m mod 10 ^ N.of_nat n)%N (k + n).
Proof.
  induction n as [|n IH]; intros m v k rest; cbn [digits_pad].
  - cbn. rewrite N.mod_1_r, N.mul_1_r, !N.add_0_r, Nat.add_0_r. reflexivity.
  - rewrite digits_pad_app, app_assoc_s, IH.
    cbn [append readDigits].
    assert (Hm : (m mod 10 < 10)%N) by (apply N.mod_lt; lia).
    rewrite (isDigit_digit_char _ Hm), (digitVal_digit_char _ Hm).
    f_equal; [|lia]. rewrite Nat2N.inj_succ, N.pow_succ_r'.
    rewrite N.mod_mul_r by (try apply N.pow_nonzero; lia). lia.
Qed.

Fixpoint uval (d : uint) (v : N) : N :=
  match d with
  | Nil => v
  | D0 d => uval d (v * 10)
  | D1 d => uval d (v * 10 + 1)
  | D2 d => uval d (v * 10 + 2)
  | D3 d => uval d (v * 10 + 3)
  | D4 d => uval d (v * 10 + 4)
  | D5 d => uval d (v * 10 + 5)
  | D6 d => uval d (v * 10 + 6)
  | D7 d => uval d (v * 10 + 7)
  | D8 d => uval d (v * 10 + 8)
  | D9 d => uval d (v * 10 + 9)
  end.

Lemma readDigits_uint d : forall v k rest,
  exists k', readDigits (NilEmpty.string_of_uint d ++ rest) v k = readDigits rest (uval d v) k' /\
             (k <= k')%nat /\ (d <> Nil -> (k < k')%nat).
Proof.
  induction d; intros v k rest; cbn [NilEmpty.string_of_uint append readDigits uval].
  - exists k. repeat split; auto. congruence.
  - destruct (IHd (v * 10)%N (S k) rest) as (k' & E & H1 & H2).
    exists k'. cbn. rewrite N.add_0_r. repeat split; [exact E|lia|intros _; lia].
  - destruct (IHd (v * 10 + 1)%N (S k) rest) as (k' & E & H1 & H2). exists k'. repeat split; [exact E|lia|intros _; lia].
  - destruct (IHd (v * 10 + 2)%N (S k) rest) as (k' & E & H1 & H2). exists k'. repeat split; [exact E|lia|intros _; lia].
  - destruct (IHd (v * 10 + 3)%N (S k) rest) as (k' & E & H1 & H2). exists k'. repeat split; [exact E|lia|intros _; lia].
  - destruct (IHd (v * 10 + 4)%N (S k) rest) as (k' & E & H1 & H2). exists k'. repeat split; [exact E|lia|intros _; lia].
  - destruct (IHd (v * 10 + 5)%N (S k) rest) as (k' & E & H1 & H2). exists k'. repeat split; [exact E|lia|intros _; lia].
  - destruct (IHd (v * 10 + 6)%N (S k) rest) as (k' & E & H1 & H2). exists k'. repeat split; [exact E|lia|intros _; lia].
  - destruct (IHd (v * 10 + 7)%N (S k) rest) as (k' & E & H1 & H2). exists k'. repeat split; [exact E|lia|intros _; lia].
  - destruct (IHd (v * 10 + 8)%N (S k) rest) as (k' & E & H1 & H2). exists k'. repeat split; [exact E|lia|intros _; lia].
  - destruct (IHd (v * 10 + 9)%N (S k) rest) as (k' & E & H1 & H2). exists k'. repeat split; [exact E|lia|intros _; lia].
Qed.

Lemma uval_acc d : forall p, N.pos (Pos.of_uint_acc d p) = uval d (N.pos p).
Proof.
  induction d; intros p; cbn [Pos.of_uint_acc uval]; try rewrite IHd; try reflexivity;
    f_equal; lia.
Qed.

Lemma uval_of_uint d : N.of_uint d = uval d 0.
Proof.
  unfold N.of_uint. induction d; cbn [Pos.of_uint uval]; try reflexivity; try exact IHd;
    try (rewrite uval_acc; reflexivity).
Qed.

Lemma readDigits_int m k rest :
  exists k', readDigits (digits_int m ++ rest) 0 k = readDigits rest m k' /\ (k < k')%nat.
Proof.
  rewrite digits_int_NilEmpty.
  destruct (readDigits_uint (N.to_uint m) 0%N k rest) as (k' & E & _ & H).
  rewrite <- uval_of_uint, DecimalN.Unsigned.of_to in E.
  exists k'. split; auto. apply H. destruct m; cbn; [discriminate|].
  apply DecimalPos.Unsigned.to_uint_nonnil.
Qed.

Lemma digits_int_inj m1 m2 : digits_int m1 = digits_int m2 -> m1 = m2.
Proof.
  intros E. destruct (readDigits_int m1 0 "") as (k1 & E1 & _). destruct (readDigits_int m2 0 "") as (k2 & E2 & _).
  rewrite E, E2 in E1. cbn in E1. inversion E1; auto.
Qed.

Lemma digits_pad_inj n m1 m2 : (m1 < 10 ^ N.of_nat n)%N -> (m2 < 10 ^ N.of_nat n)%N ->
  digits_pad n m1 "" = digits_pad n m2 "" -> m1 = m2.
Proof.
  intros H1 H2 E. pose proof (readDigits_pad n m1 0 0 "") as E1. pose proof (readDigits_pad n m2 0 0 "") as E2.
  rewrite E, E2 in E1. cbn in E1. inversion E1 as [H].
  rewrite !N.mod_small in H by assumption. auto.
Qed.

(** ** characters of a printed number *)
Definition isTextCh (c : ascii) : bool :=
  isDigit c || Ascii.eqb c "." || Ascii.eqb c "-" || Ascii.eqb c "+" || isAlpha c.

Lemma digits_text s : all_ch isDigit s = true -> all_ch isTextCh s = true.
Proof. apply all_ch_impl. intros c H. unfold isTextCh. rewrite H. reflexivity. Qed.

Lemma render_text n t : all_ch isTextCh (render n t) = true.
Proof.
  destruct t as [|[]|s m]; try reflexivity.
  unfold render. rewrite !all_ch_app, (digits_text _ (digits_int_digits _)).
  destruct n as [|n]; destruct s; cbn [all_ch]; try reflexivity;
    rewrite (digits_text _ (digits_pad_digits (S n) _)); reflexivity.
Qed.

Lemma render_isnt c n t : isTextCh c = false -> all_ch (isnt c) (render n t) = true.
Proof.
  intros H. eapply all_ch_impl; [|apply render_text]. intros x Hx. unfold isnt.
  destruct (Ascii.eqb_spec x c) as [->|]; [congruence|reflexivity].
Qed.

(** ** printed text determines the printed number *)
Lemma render_inj n t1 t2 : render n t1 = render n t2 -> t1 = t2.
Proof.
  assert (Hd : forall s m, exists c r, digits_int m ++ s = String c r /\ isDigit c = true).
  { intros s m. pose proof (digits_int_nonempty m) as Hn. pose proof (digits_int_digits m) as Ha.
    destruct (digits_int m) as [|c r]; [congruence|]. cbn in *. apply andb_prop in Ha as [Ha _]. eauto. }
  assert (Hdig : forall m1 m2, 
    digits_int (m1 / 10 ^ N.of_nat n) ++ match n with O => "" | S _ => String "." (digits_pad n (m1 mod 10 ^ N.of_nat n) "") end =
    digits_int (m2 / 10 ^ N.of_nat n) ++ match n with O => "" | S _ => String "." (digits_pad n (m2 mod 10 ^ N.of_nat n) "") end ->
    m1 = m2).
  { intros m1 m2 E. assert (Hp : (10 ^ N.of_nat n <> 0)%N) by (apply N.pow_nonzero; lia).
    rewrite (N.div_mod m1 _ Hp), (N.div_mod m2 _ Hp).
    destruct n as [|n].
    - rewrite !app_nil_s in E. apply digits_int_inj in E. change (10 ^ N.of_nat 0)%N with 1%N in *. rewrite E, !N.mod_1_r. reflexivity.
    - apply split_at in E.
      + destruct E as [Ea Eb]. apply digits_int_inj in Ea. apply digits_pad_inj in Eb; try (apply N.mod_lt; exact Hp).
        rewrite Ea, Eb. reflexivity.
      + eapply all_ch_impl; [|apply digits_int_digits]. intros c Hc. unfold isnt.
        destruct (Ascii.eqb_spec c "."); [subst; discriminate|reflexivity].
      + eapply all_ch_impl; [|apply digits_int_digits]. intros c Hc. unfold isnt.
        destruct (Ascii.eqb_spec c "."); [subst; discriminate|reflexivity]. }
  destruct t1 as [|[]|s1 m1], t2 as [|[]|s2 m2]; unfold render; try discriminate; auto.
  - destruct (Hd match n with O => "" | S _ => String "." (digits_pad n (m2 mod 10 ^ N.of_nat n) "") end (m2 / 10 ^ N.of_nat n)%N) as (c & r & E & Hc).
    destruct s2; cbn [append]; rewrite E; intros H; inversion H; subst; discriminate.
  - destruct (Hd match n with O => "" | S _ => String "." (digits_pad n (m2 mod 10 ^ N.of_nat n) "") end (m2 / 10 ^ N.of_nat n)%N) as (c & r & E & Hc).
    destruct s2; cbn [append]; rewrite E; intros H; inversion H; subst; discriminate.
  - destruct (Hd match n with O => "" | S _ => String "." (digits_pad n (m2 mod 10 ^ N.of_nat n) "") end (m2 / 10 ^ N.of_nat n)%N) as (c & r & E & Hc).
    destruct s2; cbn [append]; rewrite E; intros H; inversion H; subst; discriminate.
  - destruct (Hd match n with O => "" | S _ => String "." (digits_pad n (m1 mod 10 ^ N.of_nat n) "") end (m1 / 10 ^ N.of_nat n)%N) as (c & r & E & Hc).
    destruct s1; cbn [append]; rewrite E; intros H; inversion H; subst; discriminate.
  - destruct (Hd match n with O => "" | S _ => String "." (digits_pad n (m1 mod 10 ^ N.of_nat n) "") end (m1 / 10 ^ N.of_nat n)%N) as (c & r & E & Hc).
    destruct s1; cbn [append]; rewrite E; intros H; inversion H; subst; discriminate.
  - destruct (Hd match n with O => "" | S _ => String "." (digits_pad n (m1 mod 10 ^ N.of_nat n) "") end (m1 / 10 ^ N.of_nat n)%N) as (c & r & E & Hc).
    destruct s1; cbn [append]; rewrite E; intros H; inversion H; subst; discriminate.
  - destruct (Hd match n with O => "" | S _ => String "." (digits_pad n (m1 mod 10 ^ N.of_nat n) "") end (m1 / 10 ^ N.of_nat n)%N) as (c1 & r1 & E1 & Hc1).
    destruct (Hd match n with O => "" | S _ => String "." (digits_pad n (m2 mod 10 ^ N.of_nat n) "") end (m2 / 10 ^ N.of_nat n)%N) as (c2 & r2 & E2 & Hc2).
    destruct s1, s2; cbn [append]; intros H.
    + inversion H as [H']. apply Hdig in H'. subst. reflexivity.
    + rewrite E2 in H. inversion H; subst; discriminate.
    + rewrite E1 in H. inversion H; subst; discriminate.
    + apply Hdig in H. subst. reflexivity.
Qed.

Lemma split_str a b s1 s2 t1 t2 :
  all_ch (isnt a) s1 = true -> all_ch (isnt a) s2 = true ->
  s1 ++ String a b ++ t1 = s2 ++ String a b ++ t2 -> s1 = s2 /\ t1 = t2.
Proof.
  intros H1 H2 E. cbn in E. apply (split_at a) in E; auto. destruct E as [-> E]. split; auto.
  eapply app_inv_head_s; exact E.
Qed.

(** ** equality of points and segments to a number of decimals, spelled out *)
Section Pts.
Context {N : Num}.

(** the two numbers print alike *)
Definition same_dec (n : nat) (x y : T N) : Prop := fmtd n x = fmtd n y.
Definition same_pt_dec (n : nat) (p q : Pt N) : Prop := same_dec n (px p) (px q) /\ same_dec n (py p) (py q).

Lemma fmt_same n (x y : T N) : fmt n x = fmt n y <-> same_dec n x y.
Proof. unfold fmt, same_dec. split; [apply render_inj|intros ->; reflexivity]. Qed.

Lemma PrecisionEquals_same (x y : T N) n : PrecisionEquals x y (Z.of_nat n) = true <-> same_dec n x y.
Proof.
  unfold PrecisionEquals. destruct (Z.ltb_spec (Z.of_nat n) 0); [lia|]. rewrite Nat2Z.id, String.eqb_eq. apply fmt_same.
Qed.

Lemma StringPrecision_same (p q : Pt N) n : StringPrecision p n = StringPrecision q n <-> same_pt_dec n p q.
Proof.
  unfold StringPrecision, same_pt_dec. split.
  - intros E. apply app_inv_head_s in E.
    apply (split_str "," " Y: ") in E; try (apply render_isnt; reflexivity).
    destruct E as [E1 E2]. apply (split_at ")") in E2; try (apply render_isnt; reflexivity).
    split; apply fmt_same; tauto.
  - intros [H1 H2]. apply fmt_same in H1, H2. rewrite H1, H2. reflexivity.
Qed.

Lemma EqualsPrecision_same (p q : Pt N) n : EqualsPrecision p q (Z.of_nat n) = true <-> same_pt_dec n p q.
Proof.
  unfold EqualsPrecision. destruct (Z.ltb_spec (Z.of_nat n) 0); [lia|]. rewrite Nat2Z.id, String.eqb_eq. apply StringPrecision_same.
Qed.

Lemma ptText_same n (p q : Pt N) t1 t2 : ptText n p ++ t1 = ptText n q ++ t2 -> same_pt_dec n p q /\ t1 = t2.
Proof.
  unfold ptText. rewrite !app_assoc_s. intros E. apply app_inv_head_s in E.
  apply (split_str "," " ") in E; try (apply render_isnt; reflexivity). destruct E as [E1 E].
  apply (split_str ")" "") in E; try (apply render_isnt; reflexivity). destruct E as [E2 E].
  split; [|exact E]. split; apply fmt_same; assumption.
Qed.

(** the two segments are of the same kind and all their points agree to [n] decimals *)
Definition same_seg_dec (n : nat) (g h : seg N) : Prop :=
  match g, h with
  | Move s e, Move s' e' => same_pt_dec n s s' /\ same_pt_dec n e e'
  | Line s e, Line s' e' => same_pt_dec n s s' /\ same_pt_dec n e e'
  | Curve s cs e ce, Curve s' cs' e' ce' =>
      same_pt_dec n s s' /\ same_pt_dec n cs cs' /\ same_pt_dec n e e' /\ same_pt_dec n ce ce'
  | _, _ => False
  end.

Lemma ptText_eq n (p q : Pt N) : same_pt_dec n p q -> ptText n p = ptText n q.
Proof. intros [H1 H2]. apply fmt_same in H1, H2. unfold ptText. rewrite H1, H2. reflexivity. Qed.

Lemma UniqueString_same n (g h : seg N) : UniqueString n g = UniqueString n h <-> same_seg_dec n g h.
Proof.
  split.
  - destruct g as [s e|s e|s a e b], h as [s' e'|s' e'|s' a' e' b']; try discriminate; unfold UniqueString; intros E;
      apply app_inv_head_s in E; apply ptText_same in E; destruct E as [E1 E]; apply app_inv_head_s in E.
    + rewrite <- (app_nil_s (ptText n e)), <- (app_nil_s (ptText n e')) in E. apply ptText_same in E. cbn; tauto.
    + rewrite <- (app_nil_s (ptText n e)), <- (app_nil_s (ptText n e')) in E. apply ptText_same in E. cbn; tauto.
    + apply ptText_same in E. destruct E as [E2 E]. apply app_inv_head_s in E.
      apply ptText_same in E. destruct E as [E3 E]. apply app_inv_head_s in E.
      rewrite <- (app_nil_s (ptText n e)), <- (app_nil_s (ptText n e')) in E. apply ptText_same in E. cbn; tauto.
  - destruct g as [s e|s e|s a e b], h as [s' e'|s' e'|s' a' e' b']; try contradiction; cbn [same_seg_dec];
      intros H; unfold UniqueString; decompose [and] H;
      repeat match goal with X : same_pt_dec _ _ _ |- _ => apply ptText_eq in X; rewrite X; clear X end; reflexivity.
Qed.

End Pts.
