(** JSON: what is written is read back. *)
From Coq Require Import String Ascii List NArith Bool Lia Permutation.
From Verif Require Import Num DynModel Comments Json.
Import ListNotations.
Local Open Scope string_scope.
Local Open Scope N_scope.

(** *** texts of characters, the spec: UTF-8 *)
Inductive utf8 : string -> Prop :=
| utf8_nil : utf8 ""
| utf8_char n s : n < 55296 \/ 57344 <= n < 1114112 -> utf8 s -> utf8 (encodeRune n ++ s).

Lemma app_nil_str s : s ++ "" = s. Proof. induction s as [|c s IH]; cbn; congruence. Qed.
Lemma app_str a b c : (a ++ b) ++ c = a ++ b ++ c. Proof. induction a as [|x a IH]; cbn; congruence. Qed.
Lemma code_lt c : code c < 256. Proof. apply N_ascii_bounded. Qed.
Lemma code_of n : n < 256 -> code (ascii_of_N n) = n. Proof. apply N_ascii_embedding. Qed.
Lemma of_code c : ascii_of_N (code c) = c. Proof. apply ascii_N_embedding. Qed.
Lemma code_inj a b : code a = code b -> a = b. Proof. intros H. rewrite <- (of_code a), <- (of_code b), H. reflexivity. Qed.
Lemma between_spec a b c : between a b c = true <-> a <= code c <= b.
Proof. unfold between. rewrite andb_true_iff, !N.leb_le. reflexivity. Qed.
Lemma between_false a b c : between a b c = false <-> code c < a \/ b < code c.
Proof. unfold between. rewrite andb_false_iff, !N.leb_gt. reflexivity. Qed.

Lemma in_range a b n : a <= n <= b -> (a <=? n) && (n <=? b) = true. Proof. intros H. rewrite andb_true_iff, !N.leb_le. exact H. Qed.
Lemma out_range a b n : n < a \/ b < n -> (a <=? n) && (n <=? b) = false. Proof. intros H. rewrite andb_false_iff, !N.leb_gt. exact H. Qed.
(** the length of a character *)
Lemma runeLen_encode n s : n < 55296 \/ 57344 <= n < 1114112 -> runeLen (encodeRune n ++ s) = String.length (encodeRune n).
Proof.
  intros H. unfold encodeRune. assert (M : forall x, x mod 64 < 64) by (intros; apply N.mod_lt; lia).
  destruct (N.ltb_spec n 128) as [L1|L1]; [cbn [append runeLen]; rewrite code_of by lia; destruct (N.ltb_spec n 128); [reflexivity|lia]|].
  pose proof (M n) as M1. pose proof (M (n / 64)) as M2. pose proof (M (n / 4096)) as M3. pose proof (N.le_0_l (n mod 64)) as P1. pose proof (N.le_0_l (n / 64 mod 64)) as P2. pose proof (N.le_0_l (n / 4096 mod 64)) as P3. pose proof (N.le_0_l (n mod 4096)) as P4.
  destruct (N.ltb_spec n 2048) as [L2|L2].
  { assert (D : 2 <= n / 64 < 32) by (split; [apply N.div_le_lower_bound; lia|apply N.div_lt_upper_bound; lia]).
    cbn [append runeLen String.length]. unfold between. rewrite !code_of by lia. destruct (N.ltb_spec (192 + n / 64) 128); [lia|]. rewrite (in_range 194 223), (in_range 128 191) by lia. reflexivity. }
  destruct (N.ltb_spec n 65536) as [L3|L3].
  { assert (D : n / 4096 < 16) by (apply N.div_lt_upper_bound; lia). pose proof (N.div_mod n 4096 ltac:(lia)) as E1. pose proof (N.mod_lt n 4096 ltac:(lia)) as E2.
    assert (E3 : n / 64 = 64 * (n / 4096) + n / 64 mod 64). { rewrite (N.div_mod (n / 64) 64) at 1 by lia. rewrite N.div_div by lia. reflexivity. }
    pose proof (N.div_mod n 64 ltac:(lia)) as E4.
    cbn [append runeLen String.length]. unfold between. rewrite !code_of by lia. destruct (N.ltb_spec (224 + n / 4096) 128); [lia|]. rewrite (out_range 194 223), (in_range 224 239) by lia.
    destruct (N.eqb_spec (224 + n / 4096) 224); destruct (N.eqb_spec (224 + n / 4096) 237); try lia; rewrite !in_range by lia; reflexivity. }
  assert (D : n / 262144 < 5) by (apply N.div_lt_upper_bound; lia). pose proof (N.div_mod n 262144 ltac:(lia)) as E1. pose proof (N.mod_lt n 262144 ltac:(lia)) as E2.
  assert (E3 : n / 4096 = 64 * (n / 262144) + n / 4096 mod 64). { rewrite (N.div_mod (n / 4096) 64) at 1 by lia. rewrite N.div_div by lia. reflexivity. }
  pose proof (N.div_mod n 4096 ltac:(lia)) as E4. pose proof (N.mod_lt n 4096 ltac:(lia)) as E5.
  cbn [append runeLen String.length]. unfold between. rewrite !code_of by lia. destruct (N.ltb_spec (240 + n / 262144) 128); [lia|]. rewrite (out_range 194 223), (out_range 224 239), (in_range 240 244) by lia.
  destruct (N.eqb_spec (240 + n / 262144) 240); destruct (N.eqb_spec (240 + n / 262144) 244); try lia; rewrite !in_range by lia; reflexivity.
Qed.
Definition scalar (n : N) : Prop := n < 55296 \/ 57344 <= n < 1114112.
(** characters beyond ASCII start with a byte beyond ASCII *)
Lemma encode_head n : 128 <= n -> n < 1114112 -> exists a t, encodeRune n = String a t /\ 128 <= code a.
Proof.
  intros H H2. pose proof (N.le_0_l (n / 64)). pose proof (N.le_0_l (n / 4096)). pose proof (N.le_0_l (n / 262144)). unfold encodeRune. destruct (N.ltb_spec n 128) as [L1|L1]; [lia|]. destruct (N.ltb_spec n 2048) as [L2|L2].
  { assert (D : n / 64 < 32) by (apply N.div_lt_upper_bound; lia). do 2 eexists. split; [reflexivity|]. rewrite code_of; lia. }
  destruct (N.ltb_spec n 65536) as [L3|L3].
  { assert (D : n / 4096 < 16) by (apply N.div_lt_upper_bound; lia). do 2 eexists. split; [reflexivity|]. rewrite code_of; lia. }
  assert (D : n / 262144 < 5) by (apply N.div_lt_upper_bound; lia). do 2 eexists. split; [reflexivity|]. rewrite code_of; lia.
Qed.
Lemma encode_ascii c : code c < 128 -> encodeRune (code c) = String c "".
Proof. intros H. unfold encodeRune. destruct (N.ltb_spec (code c) 128); [|lia]. rewrite of_code. reflexivity. Qed.
(** where there is a character it is that of a code point *)
Lemma runeLen_char s k : runeLen s = S k -> exists n r, scalar n /\ s = encodeRune n ++ r /\ String.length (encodeRune n) = S k.
Proof.
  destruct s as [|a s]; [discriminate|]. cbn [runeLen]. destruct (N.ltb_spec (code a) 128) as [L|L].
  { intros [= <-]. exists (code a), s. rewrite encode_ascii by exact L. split; [left; lia|split; reflexivity]. }
  assert (A : forall c x, code c = x -> ascii_of_N x = c) by (intros c x <-; apply of_code).
  destruct s as [|b s]; [discriminate|]. pose proof (code_lt a) as La. pose proof (code_lt b) as Lb. destruct (between 194 223 a) eqn:E1.
  { destruct (between 128 191 b) eqn:E2; [|discriminate]. intros [= <-]. apply between_spec in E1, E2. set (n := (code a - 192) * 64 + (code b - 128)). exists n, s.
    assert (D : n / 64 = code a - 192) by (symmetry; apply (N.div_unique n 64 (code a - 192) (code b - 128)); unfold n; lia). assert (M : n mod 64 = code b - 128) by (symmetry; apply (N.mod_unique n 64 (code a - 192)); unfold n; lia).
    split; [left; unfold n; lia|]. unfold encodeRune. destruct (N.ltb_spec n 128); [unfold n in *; lia|]. destruct (N.ltb_spec n 2048); [|unfold n in *; lia]. rewrite D, M, (A a), (A b) by lia. split; reflexivity. }
  destruct (between 224 239 a) eqn:E2.
  { destruct (between _ _ b) eqn:E3; [|discriminate]. destruct s as [|c s]; [discriminate|]. destruct (between 128 191 c) eqn:E4; [|discriminate]. intros [= <-]. apply between_spec in E2, E3, E4. pose proof (code_lt c) as Lc.
    assert (B : 128 <= code b <= 191 /\ (code a = 224 -> 160 <= code b) /\ (code a = 237 -> code b <= 159)) by (destruct (N.eqb_spec (code a) 224); destruct (N.eqb_spec (code a) 237); lia). destruct B as (B1 & B2 & B3).
    set (n := (code a - 224) * 4096 + ((code b - 128) * 64 + (code c - 128))). exists n, s.
    assert (D1 : n / 4096 = code a - 224) by (symmetry; apply (N.div_unique n 4096 (code a - 224) ((code b - 128) * 64 + (code c - 128))); unfold n; lia).
    assert (D2 : n / 64 = (code a - 224) * 64 + (code b - 128)) by (symmetry; apply (N.div_unique n 64 _ (code c - 128)); unfold n; lia).
    assert (D3 : n / 64 mod 64 = code b - 128) by (rewrite D2; symmetry; apply (N.mod_unique _ 64 (code a - 224)); lia). assert (D4 : n mod 64 = code c - 128) by (symmetry; apply (N.mod_unique n 64 ((code a - 224) * 64 + (code b - 128))); unfold n; lia).
    assert (R : scalar n /\ 2048 <= n < 65536). { unfold scalar, n. destruct (N.eq_dec (code a) 224); [specialize (B2 e); lia|]. destruct (N.eq_dec (code a) 237); [specialize (B3 e); lia|]. lia. } destruct R as [R1 R2].
    split; [exact R1|]. unfold encodeRune. destruct (N.ltb_spec n 128); [lia|]. destruct (N.ltb_spec n 2048); [lia|]. destruct (N.ltb_spec n 65536); [|lia]. rewrite D1, D3, D4, (A a), (A b), (A c) by lia. split; reflexivity. }
  destruct (between 240 244 a) eqn:E3; [|discriminate]. destruct (between _ _ b) eqn:E4; [|discriminate]. destruct s as [|c [|d s]]; try discriminate. destruct (between 128 191 c) eqn:E5; [|discriminate]. destruct (between 128 191 d) eqn:E6; [|discriminate]. intros [= <-].
  apply between_spec in E3, E4, E5, E6. pose proof (code_lt c) as Lc. pose proof (code_lt d) as Ld.
  assert (B : 128 <= code b <= 191 /\ (code a = 240 -> 144 <= code b) /\ (code a = 244 -> code b <= 143)) by (destruct (N.eqb_spec (code a) 240); destruct (N.eqb_spec (code a) 244); lia). destruct B as (B1 & B2 & B3).
  set (n := (code a - 240) * 262144 + ((code b - 128) * 4096 + ((code c - 128) * 64 + (code d - 128)))). exists n, s.
  assert (D0 : n / 262144 = code a - 240) by (symmetry; apply (N.div_unique n 262144 _ ((code b - 128) * 4096 + ((code c - 128) * 64 + (code d - 128)))); unfold n; lia).
  assert (D1 : n / 4096 = (code a - 240) * 64 + (code b - 128)) by (symmetry; apply (N.div_unique n 4096 _ ((code c - 128) * 64 + (code d - 128))); unfold n; lia).
  assert (D2 : n / 64 = (code a - 240) * 4096 + (code b - 128) * 64 + (code c - 128)) by (symmetry; apply (N.div_unique n 64 _ (code d - 128)); unfold n; lia).
  assert (D3 : n / 4096 mod 64 = code b - 128) by (rewrite D1; symmetry; apply (N.mod_unique _ 64 (code a - 240)); lia).
  assert (D4 : n / 64 mod 64 = code c - 128) by (rewrite D2; symmetry; apply (N.mod_unique _ 64 ((code a - 240) * 64 + (code b - 128))); lia).
  assert (D5 : n mod 64 = code d - 128) by (symmetry; apply (N.mod_unique n 64 ((code a - 240) * 4096 + (code b - 128) * 64 + (code c - 128))); unfold n; lia).
  assert (R : scalar n /\ 65536 <= n). { unfold scalar, n. destruct (N.eq_dec (code a) 240); [specialize (B2 e); lia|]. destruct (N.eq_dec (code a) 244); [specialize (B3 e); lia|]. lia. } destruct R as [R1 R2].
  split; [exact R1|]. unfold encodeRune. destruct (N.ltb_spec n 128); [lia|]. destruct (N.ltb_spec n 2048); [lia|]. destruct (N.ltb_spec n 65536); [lia|]. rewrite D0, D3, D4, D5, (A a), (A b), (A c), (A d) by lia. split; reflexivity.
Qed.

(** *** text literals *)
Lemma escape_start keep s : escape keep 0 s = escape true 0 s. Proof. destruct s; reflexivity. Qed.
Lemma escape_keep t s : escape true (String.length t) (t ++ s) = t ++ escape true 0 s.
Proof. induction t as [|c t IH]; [reflexivity|]. cbn [String.length append escape]. rewrite IH. reflexivity. Qed.
Lemma escape_drop t s : escape false (String.length t) (t ++ s) = escape true 0 s.
Proof. induction t as [|c t IH]; [apply escape_start|]. cbn [String.length append escape]. exact IH. Qed.
Lemma prefix_prefix a b o : prefix a (prefix b o) = prefix (a ++ b) o. Proof. destruct o as [[s r]|]; cbn [prefix]; [rewrite app_str|]; reflexivity. Qed.
Lemma prefix_nil o : prefix "" o = o. Proof. destruct o as [[s r]|]; reflexivity. Qed.
Lemma literal_copy t s : literal (String.length t) (t ++ s) = prefix t (literal 0 s).
Proof. induction t as [|c t IH]; [symmetry; apply prefix_nil|]. cbn [String.length append literal]. rewrite IH, prefix_prefix. reflexivity. Qed.
Lemma literal_char n s : scalar n -> 128 <= n -> literal 0 (encodeRune n ++ s) = prefix (encodeRune n) (literal 0 s).
Proof.
  intros H G. pose proof (runeLen_encode n s H) as R. destruct (encode_head n G ltac:(unfold scalar in H; lia)) as (a & t & E & Ha). rewrite E in R |- *. cbn [append String.length] in R |- *. cbn [literal].
  destruct (Ascii.eqb_spec a quote) as [->|_]; [exfalso; revert Ha; vm_compute; congruence|]. destruct (Ascii.eqb_spec a backslash) as [->|_]; [exfalso; revert Ha; vm_compute; congruence|].
  destruct (N.ltb_spec (code a) 32); [lia|]. destruct (N.ltb_spec (code a) 128); [lia|]. cbn [runeLen] in R |- *. rewrite R, literal_copy, prefix_prefix. reflexivity.
Qed.
Lemma literal_ascii c s : code c < 128 -> literal 0 ((if safe c then String c "" else escaped c) ++ s) = prefix (String c "") (literal 0 s).
Proof.
  intros H. destruct c as [b0 b1 b2 b3 b4 b5 b6 b7]. destruct b7; [exfalso; revert H; destruct b0, b1, b2, b3, b4, b5, b6; vm_compute; discriminate|]. clear H.
  destruct b0, b1, b2, b3, b4, b5, b6; reflexivity.
Qed.
(** What is written between quotes is read as the text. *)
Lemma literal_escape s : utf8 s -> forall r, literal 0 (escape true 0 s ++ String quote r) = Some (s, r).
Proof.
  induction 1 as [|n s Hn Hs IH]; intros r; [reflexivity|].
  destruct (N.lt_ge_cases n 128) as [L|G].
  - assert (E : encodeRune n = String (ascii_of_N n) "") by (unfold encodeRune; destruct (N.ltb_spec n 128); [reflexivity|lia]). rewrite E. cbn [append]. cbn [escape]. rewrite code_of by lia. destruct (N.ltb_spec n 128); [|lia].
    rewrite app_str, literal_ascii by (rewrite code_of; lia). rewrite IH. reflexivity.
  - pose proof (runeLen_encode n s Hn) as R. destruct (encode_head n G ltac:(unfold scalar in Hn; lia)) as (a & t & E & Ha). rewrite E in R |- *. cbn [append String.length] in R |- *. cbn [escape].
    destruct (N.ltb_spec (code a) 128); [lia|]. rewrite R. destruct (separator (String a (t ++ s))) as [d|] eqn:ES.
    + rewrite escape_drop. cbn [separator] in ES. rewrite app_str.
      assert (K : exists b c s', t ++ s = String b (String c s') /\ code a = 226 /\ code b = 128 /\ ((code c = 168 /\ d = "8"%char) \/ (code c = 169 /\ d = "9"%char))).
      { destruct (t ++ s) as [|b [|c s']]; try discriminate. exists b, c, s'. split; [reflexivity|]. destruct (N.eqb_spec (code a) 226); [|discriminate]. destruct (N.eqb_spec (code b) 128); [|discriminate]. cbn [andb] in ES.
        split; [assumption|]. split; [assumption|]. destruct (N.eqb_spec (code c) 168); [left; split; congruence|]. destruct (N.eqb_spec (code c) 169); [right; split; congruence|discriminate]. }
      destruct K as (b & c & s' & ET & Ca & Cb & Cc). rewrite ET in R. cbn [runeLen] in R. unfold between in R. rewrite Ca, Cb in R.
      assert (LT : String.length t = 2%nat). { cbn in R. destruct Cc as [[Cc _]|[Cc _]]; rewrite Cc in R; cbn in R; congruence. }
      destruct t as [|b' [|c' [|]]]; try discriminate LT. cbn [append] in ET. injection ET as -> -> <-.
      assert (Ea : a = ascii_of_N 226) by (rewrite <- Ca, of_code; reflexivity). assert (Eb : b = ascii_of_N 128) by (rewrite <- Cb, of_code; reflexivity).
      assert (Ec : c = ascii_of_N (code c)) by (rewrite of_code; reflexivity). rewrite Ea, Eb. cbn [append]. destruct Cc as [[Cc ->]|[Cc ->]]; rewrite Cc in Ec; rewrite Ec.
      * change (prefix (String (ascii_of_N 226) (String (ascii_of_N 128) (String (ascii_of_N 168) ""))) (literal 0 (escape true 0 s ++ String quote r)) = Some (String (ascii_of_N 226) (String (ascii_of_N 128) (String (ascii_of_N 168) s)), r)). rewrite IH. reflexivity.
      * change (prefix (String (ascii_of_N 226) (String (ascii_of_N 128) (String (ascii_of_N 169) ""))) (literal 0 (escape true 0 s ++ String quote r)) = Some (String (ascii_of_N 226) (String (ascii_of_N 128) (String (ascii_of_N 169) s)), r)). rewrite IH. reflexivity.
    + rewrite escape_keep. cbn [append]. rewrite app_str. pose proof (literal_char n (escape true 0 s ++ String quote r) Hn G) as LC. rewrite E in LC. cbn [append] in LC. rewrite LC, IH. reflexivity.
Qed.
Lemma utf8_ascii c s : code c < 128 -> utf8 s -> utf8 (String c s).
Proof. intros H S. change (String c s) with (String c "" ++ s). rewrite <- encode_ascii by exact H. constructor; [left; lia|exact S]. Qed.
Lemma hexValue_lt c n : hexValue c = Some n -> n < 16.
Proof.
  unfold hexValue. destruct (between 48 57 c) eqn:E1; [apply between_spec in E1; intros H; assert (n = code c - 48) by congruence; lia|].
  destruct (between 97 102 c) eqn:E2; [apply between_spec in E2; intros H; assert (n = code c - 87) by congruence; lia|]. destruct (between 65 70 c) eqn:E3; [apply between_spec in E3; intros H; assert (n = code c - 55) by congruence; lia|discriminate].
Qed.
Lemma hex4_lt a b c d n : hex4 a b c d = Some n -> n < 65536.
Proof. unfold hex4. destruct (hexValue a) as [x|] eqn:Ea; [|discriminate]. destruct (hexValue b) as [y|] eqn:Eb; [|discriminate]. destruct (hexValue c) as [z|] eqn:Ec; [|discriminate]. destruct (hexValue d) as [w|] eqn:Ed; [|discriminate]. apply hexValue_lt in Ea, Eb, Ec, Ed. intros H. assert (n = 4096 * x + 256 * y + 16 * z + w) by congruence. lia. Qed.
Lemma unescape_lt e c : unescape e = Some c -> code c < 128.
Proof.
  unfold unescape. destruct (Ascii.eqb_spec e quote) as [->|_]; [intros [= <-]; reflexivity|]. destruct (Ascii.eqb_spec e backslash) as [->|_]; [intros [= <-]; reflexivity|]. destruct (Ascii.eqb_spec e "/") as [->|_]; [intros [= <-]; reflexivity|]. cbn [orb].
  repeat match goal with |- (if ?b then _ else _) = _ -> _ => destruct b; [intros H; injection H as <-; reflexivity|] end. discriminate.
Qed.
Lemma prefix_some t o s r : prefix t o = Some (s, r) -> exists s', o = Some (s', r) /\ s = t ++ s'.
Proof. destruct o as [[s' r']|]; [|discriminate]. cbn [prefix]. intros [= <- <-]. eauto. Qed.
(** What is read is made of characters, and takes bytes. *)
Lemma literal_utf8 k : forall s t r, (String.length s <= k)%nat -> literal 0 s = Some (t, r) -> utf8 t /\ (String.length r < String.length s)%nat.
Proof.
  induction k as [|k IH]; intros s t r Hk E; [destruct s; [discriminate|cbn in Hk; lia]|]. destruct s as [|c s]; [discriminate|]. cbn [String.length] in *.
  assert (RP : utf8 replacement -> True) by auto. assert (UR : forall x, utf8 x -> utf8 (replacement ++ x)) by (intros x Hx; constructor; [right; lia|exact Hx]).
  assert (Step : forall p x, prefix p (literal 0 x) = Some (t, r) -> (String.length x <= k)%nat -> (forall y, utf8 y -> utf8 (p ++ y)) -> utf8 t /\ (String.length r < String.length x)%nat).
  { intros p x Ex Hx Hp. apply prefix_some in Ex. destruct Ex as (t' & Ex & ->). destruct (IH _ _ _ Hx Ex) as [U L]. auto. }
  cbn [literal] in E. destruct (Ascii.eqb c quote); [injection E as <- <-; split; [constructor|lia]|]. destruct (Ascii.eqb c backslash).
  - destruct s as [|e s]; [discriminate|]. cbn [String.length] in *. destruct (Ascii.eqb e "u").
    + destruct s as [|h1 [|h2 [|h3 [|h4 s]]]]; try discriminate. cbn [String.length] in *. destruct (hex4 h1 h2 h3 h4) as [n|] eqn:EH; [|discriminate]. apply hex4_lt in EH.
      assert (Rep : prefix replacement (literal 0 s) = Some (t, r) -> utf8 t /\ (String.length r < S (S (S (S (S (S (String.length s)))))))%nat) by (intros Ex; destruct (Step _ s Ex ltac:(lia) UR); split; [assumption|lia]).
      destruct (half1 n || half2 n) eqn:EH2.
      * destruct s as [|x [|y [|g1 [|g2 [|g3 [|g4 s2]]]]]]; try (apply Rep; exact E). destruct (Ascii.eqb x backslash && Ascii.eqb y "u"); [|apply Rep; exact E]. destruct (hex4 g1 g2 g3 g4) as [m|] eqn:EM; [|apply Rep; exact E].
        destruct (half1 n && half2 m) eqn:EP; [|apply Rep; exact E]. apply andb_true_iff in EP. destruct EP as [P1 P2]. unfold half1, half2 in P1, P2. apply andb_true_iff in P1, P2. rewrite N.leb_le, N.ltb_lt in P1, P2.
        cbn [String.length] in *. destruct (Step _ s2 E ltac:(lia) ltac:(intros z Hz; constructor; [right; lia|exact Hz])). split; [assumption|lia].
      * apply orb_false_iff in EH2. unfold half1, half2 in EH2. rewrite !andb_false_iff, !N.leb_gt, !N.ltb_ge in EH2. destruct (Step _ s E ltac:(lia) ltac:(intros z Hz; constructor; [lia|exact Hz])). split; [assumption|lia].
    + destruct (unescape e) as [c'|] eqn:EU; [|discriminate]. apply unescape_lt in EU. destruct (Step _ s E ltac:(lia) ltac:(intros z Hz; apply utf8_ascii; assumption)). split; [assumption|lia].
  - destruct (N.ltb_spec (code c) 32); [discriminate|]. destruct (N.ltb_spec (code c) 128); [destruct (Step _ s E ltac:(lia) ltac:(intros z Hz; apply utf8_ascii; assumption)); split; [assumption|lia]|].
    destruct (runeLen (String c s)) as [|m] eqn:ER; [destruct (Step _ s E ltac:(lia) UR); split; [assumption|lia]|]. destruct (runeLen_char _ _ ER) as (n & s' & Hn & ES & EL).
    destruct (encodeRune n) as [|a x] eqn:EN; [discriminate|]. cbn [append String.length] in ES, EL. injection ES as -> ->. injection EL as <-. rewrite literal_copy, prefix_prefix in E.
    assert (LX : (String.length s' <= String.length (x ++ s'))%nat) by (clear; induction x; cbn; lia). destruct (Step _ s' E ltac:(lia) ltac:(intros z Hz; cbn [append]; change (String a (x ++ z)) with (String a x ++ z); rewrite <- EN; constructor; assumption)). split; [assumption|lia].
Qed.

(** *** numbers *)
Fixpoint every (p : ascii -> bool) (s : string) : Prop := match s with "" => True | String c r => p c = true /\ every p r end.
Lemma every_app p a b : every p (a ++ b) <-> every p a /\ every p b. Proof. induction a as [|c a IH]; cbn [append every]; [tauto|]. rewrite IH. tauto. Qed.
Lemma digits_every s : every numberByte (digits s) -> every numberByte s.
Proof. induction s as [|c s IH]; cbn [digits]; [auto|]. destruct (digit c) eqn:E; [|auto]. intros H. split; [unfold numberByte; rewrite E; reflexivity|auto]. Qed.
Lemma digits_nil s : String.eqb (digits s) "" = true -> every numberByte s. Proof. intros H. apply digits_every. apply String.eqb_eq in H. rewrite H. exact I. Qed.
Lemma digit_byte c : digit c = true -> numberByte c = true. Proof. unfold numberByte. intros ->. reflexivity. Qed.
Lemma exponent_every s : isExponent s = true -> every numberByte s.
Proof.
  destruct s as [|c s]; [intros; exact I|]. cbn [isExponent]. destruct (Ascii.eqb c "e" || Ascii.eqb c "E") eqn:E; [|discriminate]. intros H.
  assert (B : numberByte c = true) by (unfold numberByte; apply orb_true_iff in E; destruct E as [-> | ->]; rewrite ?orb_true_r; reflexivity). split; [exact B|].
  assert (G : forall x, match x with String d r => digit d && String.eqb (digits r) "" | "" => false end = true -> every numberByte x). { intros [|d x] Hx; [exact I|]. apply andb_true_iff in Hx. destruct Hx as [H1 H2]. split; [apply digit_byte, H1|apply digits_nil, H2]. }
  destruct s as [|d s]; [exact I|]. destruct (Ascii.eqb d "+" || Ascii.eqb d "-") eqn:E2; [|apply G, H]. split; [|apply G, H]. unfold numberByte. apply orb_true_iff in E2. destruct E2 as [-> | ->]; rewrite ?orb_true_r; reflexivity.
Qed.
Lemma fraction_every s : isFraction s = true -> every numberByte s.
Proof.
  destruct s as [|c s]; [intros; exact I|]. cbn [isFraction]. destruct (Ascii.eqb c ".") eqn:E; [|apply exponent_every]. destruct s as [|d s]; [discriminate|]. intros H. apply andb_true_iff in H. destruct H as [H1 H2].
  split; [unfold numberByte; rewrite E, ?orb_true_r; reflexivity|]. split; [apply digit_byte, H1|]. apply digits_every, exponent_every, H2.
Qed.
Lemma natural_every s : isNatural s = true -> every numberByte s /\ exists c r, s = String c r /\ digit c = true.
Proof.
  destruct s as [|c s]; [discriminate|]. cbn [isNatural]. destruct (Ascii.eqb_spec c "0") as [->|N].
  - intros H. split; [split; [reflexivity|apply fraction_every, H]|]. eauto.
  - intros H. apply andb_true_iff in H. destruct H as [H1 H2]. split; [split; [apply digit_byte, H1|apply digits_every, fraction_every, H2]|]. eauto.
Qed.
Lemma number_every s : isNumber s = true -> every numberByte s /\ exists c r, s = String c r /\ (digit c = true \/ c = "-"%char).
Proof.
  destruct s as [|c s]; [discriminate|]. cbn [isNumber]. destruct (Ascii.eqb_spec c "-") as [->|N]; intros H.
  - apply natural_every in H. split; [split; [reflexivity|apply H]|]. eauto.
  - apply natural_every in H. destruct H as [H (c' & r' & [= <- <-] & D)]. split; [exact H|]. eauto.
Qed.
(** the byte after a value that is written *)
Definition delim (r : string) : Prop := match r with "" => True | String c _ => c = ","%char \/ c = "]"%char \/ c = "}"%char \/ c = newline end.
Lemma span_number a r : every numberByte a -> delim r -> span (a ++ r) = (a, r).
Proof.
  intros H D. induction a as [|c a IH].
  - cbn [append]. destruct r as [|c r]; [reflexivity|]. cbn [span]. destruct D as [->|[->|[->| ->]]]; reflexivity.
  - destruct H as [H1 H2]. cbn [append span]. rewrite H1, (IH H2). reflexivity.
Qed.

(** *** the order of keys *)
Lemma sle_total a : forall b, sle a b = false -> sle b a = true.
Proof.
  induction a as [|c a IH]; intros [|d b]; cbn [sle]; try discriminate; [reflexivity|]. destruct (N.ltb_spec (code c) (code d)) as [L|L]; [discriminate|]. cbn [orb]. destruct (Ascii.eqb_spec c d) as [->|N]; cbn [andb].
  - intros H. rewrite Ascii.eqb_refl, (IH _ H). rewrite orb_true_r. reflexivity.
  - intros _. destruct (N.ltb_spec (code d) (code c)); [reflexivity|]. exfalso. apply N, code_inj. lia.
Qed.
Lemma sle_antisym a : forall b, sle a b = true -> sle b a = true -> a = b.
Proof.
  induction a as [|c a IH]; intros [|d b]; cbn [sle]; try discriminate; [reflexivity|]. destruct (N.ltb_spec (code c) (code d)) as [L|L]; cbn [orb].
  - intros _. destruct (N.ltb_spec (code d) (code c)); [lia|]. cbn [orb]. destruct (Ascii.eqb_spec d c) as [->|]; [lia|discriminate].
  - destruct (Ascii.eqb_spec c d) as [->|]; [|discriminate]. cbn [andb]. intros H1. destruct (N.ltb_spec (code d) (code d)); [lia|]. cbn [orb]. rewrite Ascii.eqb_refl. cbn [andb]. intros H2. f_equal. apply IH; assumption.
Qed.
Lemma sle_trans a : forall b c, sle a b = true -> sle b c = true -> sle a c = true.
Proof.
  induction a as [|x a IH]; intros [|y b] [|z c]; cbn [sle]; try discriminate; try reflexivity. intros H1 H2. apply orb_true_iff in H1, H2. apply orb_true_iff. rewrite !andb_true_iff, !N.ltb_lt, !Ascii.eqb_eq in *.
  destruct H1 as [H1|[-> H1]], H2 as [H2|[-> H2]]; [left; lia|left; exact H1|left; exact H2|right; split; [reflexivity|eapply IH; eassumption]].
Qed.
Section Sorted.
Context {B : Type}.
Implicit Types e f : string * B.
Lemma insertKey_comm e f l : fst e <> fst f -> insertKey e (insertKey f l) = insertKey f (insertKey e l).
Proof.
  intros N. assert (G : forall x y : string * B, fst x <> fst y -> sle (fst x) (fst y) = true -> sle (fst y) (fst x) = false). { intros x y Nxy H. destruct (sle (fst y) (fst x)) eqn:E; [|reflexivity]. exfalso. apply Nxy, sle_antisym; assumption. }
  induction l as [|x l IH]; cbn [insertKey].
  - destruct (sle (fst e) (fst f)) eqn:E1; [rewrite (G _ _ N E1); reflexivity|]. rewrite (sle_total _ _ E1). reflexivity.
  - destruct (sle (fst f) (fst x)) eqn:Ef, (sle (fst e) (fst x)) eqn:Ee; cbn [insertKey]; rewrite ?Ef, ?Ee.
    + destruct (sle (fst e) (fst f)) eqn:E1; [rewrite (G _ _ N E1); reflexivity|]. rewrite (sle_total _ _ E1). reflexivity.
    + destruct (sle (fst e) (fst f)) eqn:E1; [|reflexivity]. rewrite (sle_trans _ _ _ E1 Ef) in Ee. discriminate.
    + destruct (sle (fst f) (fst e)) eqn:E1; [|reflexivity]. rewrite (sle_trans _ _ _ E1 Ee) in Ef. discriminate.
    + rewrite IH. reflexivity.
Qed.
Lemma insertKey_perm e l : Permutation (insertKey e l) (e :: l).
Proof. induction l as [|x l IH]; cbn [insertKey]; [apply Permutation_refl|]. destruct (sle (fst e) (fst x)); [apply Permutation_refl|]. rewrite IH. apply perm_swap. Qed.
Lemma sortKeys_perm (l : list (string * B)) : Permutation (sortKeys l) l.
Proof. induction l as [|e l IH]; cbn; [apply Permutation_refl|]. rewrite insertKey_perm. constructor. exact IH. Qed.
Lemma sortKeys_unique (l m : list (string * B)) : Permutation l m -> NoDup (map fst l) -> sortKeys l = sortKeys m.
Proof.
  induction 1 as [|x l m HP IH|x y l|l m k H1 IH1 H2 IH2]; intros ND; [reflexivity| | |].
  - cbn [sortKeys fold_right]. fold (sortKeys l) (sortKeys m). cbn [map] in ND. inversion ND; subst. rewrite IH by assumption. reflexivity.
  - cbn [sortKeys fold_right]. apply insertKey_comm. cbn [map] in ND. inversion ND as [|? ? N1 N2]; subst. intros E. apply N1. left. symmetry. exact E.
  - rewrite IH1 by exact ND. apply IH2. apply (Permutation_NoDup (Permutation_map fst H1) ND).
Qed.
End Sorted.

Section Proofs.
Context (T : NumText).
Notation jv := (jv T).
Record NumTextLaws : Prop := {
  law_show : forall x, jfinite T x = true -> isNumber (jshow T x) = true /\ jread T (jshow T x) = Some x;
  law_read : forall s x, jread T s = Some x -> jfinite T x = true }.
Hypothesis Laws : NumTextLaws.

Section Ind.
Variable P : jv -> Prop.
Hypothesis Hnull : P JNull.
Hypothesis Hbool : forall b, P (JBool b).
Hypothesis Hnum : forall x, P (JNum x).
Hypothesis Htext : forall s, P (JText s).
Hypothesis Hlist : forall l, Forall P l -> P (JList l).
Hypothesis Hmap : forall l, Forall (fun e => P (snd e)) l -> P (JMap l).
Fixpoint jv_rect' (v : jv) : P v :=
  match v with
  | JNull => Hnull | JBool b => Hbool b | JNum x => Hnum x | JText s => Htext s
  | JList l => Hlist l ((fix go (l : list jv) : Forall P l := match l with [] => Forall_nil _ | w :: r => Forall_cons _ (jv_rect' w) (go r) end) l)
  | JMap l => Hmap l ((fix go (l : list (string * jv)) : Forall (fun e => P (snd e)) l := match l with [] => Forall_nil _ | e :: r => Forall_cons _ (jv_rect' (snd e)) (go r) end) l)
  end.
End Ind.

(** what JSON can say: finite numbers, texts of characters, and each key of a map once *)
Inductive nice : jv -> Prop :=
| nice_null : nice JNull
| nice_bool b : nice (JBool b)
| nice_num x : jfinite T x = true -> nice (JNum x)
| nice_text s : utf8 s -> nice (JText s)
| nice_list l : Forall nice l -> nice (JList l)
| nice_map l : NoDup (map fst l) -> Forall (fun e => utf8 (fst e)) l -> Forall (fun e => nice (snd e)) l -> nice (JMap l).
(** how deep maps and lists are nested *)
Fixpoint deep (v : jv) : N :=
  match v with
  | JList l => 1 + fold_right N.max 0 (map deep l)
  | JMap l => 1 + fold_right N.max 0 (map (fun e => deep (snd e)) l)
  | _ => 0
  end.

Section Layout.
Variable ind : bool.
Notation write := (write T ind).
Fixpoint moreItems (d : nat) (l : list jv) : string := match l with [] => line ind d ++ "]" | w :: l => "," ++ line ind (S d) ++ write (S d) w ++ moreItems d l end.
Fixpoint moreEntries (d : nat) (l : list (string * jv)) : string :=
  match l with [] => line ind d ++ "}" | e :: l => "," ++ line ind (S d) ++ quoted (fst e) ++ colon ind ++ write (S d) (snd e) ++ moreEntries d l end.
Lemma write_list d w l : write d (JList (w :: l)) = "[" ++ line ind (S d) ++ write (S d) w ++ moreItems d l.
Proof. cbn [Json.write]. do 3 f_equal. induction l as [|x l IH]; [reflexivity|]. cbn [moreItems]. rewrite IH. reflexivity. Qed.
Lemma write_map d e l : write d (JMap (e :: l)) = "{" ++ line ind (S d) ++ quoted (fst e) ++ colon ind ++ write (S d) (snd e) ++ moreEntries d l.
Proof. cbn [Json.write]. do 5 f_equal. induction l as [|x l IH]; [reflexivity|]. cbn [moreEntries]. rewrite IH. reflexivity. Qed.

Lemma skip_space a s : every space a -> skip (a ++ s) = skip s.
Proof. induction a as [|c a IH]; [reflexivity|]. intros [H1 H2]. cbn [append skip]. rewrite H1. apply IH, H2. Qed.
Lemma skip_not c s : space c = false -> skip (String c s) = String c s. Proof. intros H. cbn [skip]. rewrite H. reflexivity. Qed.
Lemma blanks_space n : every space (blanks n). Proof. induction n as [|n IH]; [exact I|]. repeat split; exact IH. Qed.
Lemma line_space d : every space (line ind d). Proof. unfold line. destruct ind; [split; [reflexivity|apply blanks_space]|exact I]. Qed.
Lemma value_skip f room s s' : skip s = skip s' -> value T f room s = value T f room s'.
Proof. intros H. destruct f as [|f]; [reflexivity|]. cbn [value]. rewrite H. reflexivity. Qed.
Lemma value_space f room a s : every space a -> value T f room (a ++ s) = value T f room s. Proof. intros H. apply value_skip, skip_space, H. Qed.

Lemma delim_items d l r : delim r -> delim (moreItems d l ++ r).
Proof. intros D. destruct l as [|w l]; [|left; reflexivity]. cbn [moreItems]. unfold line. destruct ind; cbn; auto. Qed.
Lemma delim_entries d l r : delim r -> delim (moreEntries d l ++ r).
Proof. intros D. destruct l as [|w l]; [|left; reflexivity]. cbn [moreEntries]. unfold line. destruct ind; cbn; auto. Qed.
Lemma set_new (k : string) (v : jv) acc : ~ In k (map fst acc) -> set k v acc = (acc ++ [(k, v)])%list.
Proof. induction acc as [|[k' v'] acc IH]; intros H; [reflexivity|]. cbn [set]. destruct (String.eqb_spec k k') as [->|N]; [exfalso; apply H; left; reflexivity|]. rewrite IH; [reflexivity|]. intros HI. apply H. right. exact HI. Qed.
Lemma max_le (l : list N) n : fold_right N.max 0 l <= n -> Forall (fun x => x <= n) l.
Proof. induction l as [|x l IH]; intros H; constructor; cbn [fold_right] in H; [lia|apply IH; lia]. Qed.
Lemma quoted_app s r : quoted s ++ r = String quote (escape true 0 s ++ String quote r).
Proof. unfold quoted. cbn [append]. rewrite app_str. reflexivity. Qed.

(** What is written is read back, whatever comes after it. *)
Definition readsBack (v : jv) : Prop := forall d room r, deep v <= room -> delim r -> exists f0, forall f, (f0 <= f)%nat -> value T f room (write d v ++ r) = Ok (v, r).

Lemma items_back d room r l : Forall readsBack l -> Forall (fun w => deep w <= room - 1) l -> delim r -> forall w acc, readsBack w -> deep w <= room - 1 ->
  exists f0, forall f, (f0 <= f)%nat -> elements T f room (write (S d) w ++ moreItems d l ++ r) acc = Ok (JList (acc ++ w :: l)%list, r).
Proof.
  intros H D Hr. revert H D. induction l as [|x l IH]; intros H D w acc Hw Dw; match goal with |- context [moreItems d ?l] => destruct (Hw (S d) (room - 1) (moreItems d l ++ r) Dw (delim_items d l _ Hr)) as (f1 & F1) end.
  - exists (S f1). intros f Hf. destruct f as [|f]; [lia|]. cbn [elements]. rewrite F1 by lia. cbn [bind]. cbn [moreItems]. rewrite app_str, skip_space by apply line_space. reflexivity.
  - inversion H as [|? ? Hx Hl]; subst. inversion D as [|? ? Dx Dl]; subst. destruct (IH Hl Dl x (acc ++ [w])%list Hx Dx) as (f2 & F2).
    exists (S (Nat.max f1 f2)). intros f Hf. destruct f as [|f]; [lia|]. cbn [elements]. rewrite F1 by lia. cbn [bind]. cbn [moreItems append]. rewrite skip_not by reflexivity. cbn [Ascii.eqb Bool.eqb].
    assert (EL : forall f0, elements T f0 room ((line ind (S d) ++ write (S d) x ++ moreItems d l) ++ r) (acc ++ [w])%list = elements T f0 room (write (S d) x ++ moreItems d l ++ r) (acc ++ [w])%list).
    { intros [|f0]; [reflexivity|]. cbn [elements]. rewrite !app_str, value_space by apply line_space. reflexivity. }
    rewrite EL, F2 by lia. rewrite <- app_assoc. reflexivity.
Qed.
Lemma entries_back d room r l : Forall (fun e => utf8 (fst e)) l -> Forall (fun e => readsBack (snd e)) l -> Forall (fun e => deep (snd e) <= room - 1) l -> delim r -> forall k w acc, NoDup (map fst (acc ++ (k, w) :: l)) -> utf8 k -> readsBack w -> deep w <= room - 1 ->
  exists f0, forall f, (f0 <= f)%nat -> entries T f room (quoted k ++ colon ind ++ write (S d) w ++ moreEntries d l ++ r) acc = Ok (JMap (acc ++ (k, w) :: l)%list, r).
Proof.
  intros U H D Hr. revert U H D. induction l as [|x l IH]; intros U H D k w acc ND Uk Hw Dw; match goal with |- context [moreEntries d ?l] => destruct (Hw (S d) (room - 1) (moreEntries d l ++ r) Dw (delim_entries d l _ Hr)) as (f1 & F1) end.
  all: assert (NK : ~ In k (map fst acc)) by (rewrite map_app in ND; cbn [map fst] in ND; apply NoDup_remove_2 in ND; intros HI; apply ND, in_or_app; left; exact HI).
  all: assert (Col : forall s, exists c2, colon ind ++ s = String ":" (c2 ++ s) /\ every space c2) by (intros s; unfold colon; destruct ind; [exists " "|exists ""]; repeat split).
  all: match goal with |- context [colon ind ++ ?s] => destruct (Col s) as (c2 & EC & SC) end.
  - exists (S f1). intros f Hf. destruct f as [|f]; [lia|]. cbn [entries]. rewrite quoted_app. rewrite Ascii.eqb_refl, (literal_escape k Uk), EC, skip_not by reflexivity. rewrite Ascii.eqb_refl, value_space by exact SC. rewrite F1 by lia. cbn [bind].
    cbn [moreEntries]. rewrite app_str, skip_space by apply line_space. cbn [append]. rewrite skip_not by reflexivity. cbn [Ascii.eqb Bool.eqb]. rewrite set_new by exact NK. reflexivity.
  - inversion U as [|? ? Ux Ul]; subst. inversion H as [|? ? Hx Hl]; subst. inversion D as [|? ? Dx Dl]; subst. destruct x as [kx wx]. cbn [fst snd] in *.
    destruct (IH Ul Hl Dl kx wx (acc ++ [(k, w)])%list ltac:(rewrite <- app_assoc; exact ND) Ux Hx Dx) as (f2 & F2).
    exists (S (Nat.max f1 f2)). intros f Hf. destruct f as [|f]; [lia|]. cbn [entries]. rewrite quoted_app. rewrite Ascii.eqb_refl, (literal_escape k Uk), EC, skip_not by reflexivity. rewrite Ascii.eqb_refl, value_space by exact SC. rewrite F1 by lia. cbn [bind].
    cbn [moreEntries append fst snd]. rewrite skip_not by reflexivity. cbn [Ascii.eqb Bool.eqb]. rewrite !app_str, skip_space by apply line_space. rewrite quoted_app, skip_not by reflexivity. rewrite <- quoted_app. rewrite set_new by exact NK. rewrite F2 by lia. rewrite <- app_assoc. reflexivity.
Qed.
Lemma write_back v : nice v -> readsBack v.
Proof.
  induction v as [|b|x|s|l IH|l IH] using jv_rect'; intros HN d room r Dp Hr.
  - exists 1%nat. intros [|f] Hf; [lia|]. reflexivity.
  - exists 1%nat. intros [|f] Hf; [lia|]. destruct b; reflexivity.
  - inversion HN as [| |? Fx| | |]; subst. destruct (law_show Laws x Fx) as [L1 L2]. destruct (number_every _ L1) as [L3 (c & a & EA & L4)]. exists 1%nat. intros [|f] Hf; [lia|]. cbn [Json.write value].
    assert (EH : forall e : ascii, numberByte e = false \/ e = "e"%char -> Ascii.eqb c e = false). { intros e He. apply Ascii.eqb_neq. intros ->. destruct L4 as [L4| ->]; [|destruct He as [He|He]; discriminate He]. destruct He as [He| ->]; [rewrite (digit_byte _ L4) in He|]; discriminate. }
    assert (ES : space c = false). { destruct L4 as [L4| ->]; [|reflexivity]. apply between_spec in L4. unfold space. repeat match goal with |- context [?a =? ?b] => destruct (N.eqb_spec a b); [lia|] end. reflexivity. }
    rewrite EA. cbn [append]. rewrite skip_not by exact ES. rewrite !EH by (left; reflexivity). change (String c (a ++ r)) with (String c a ++ r). rewrite <- EA, (span_number _ _ L3 Hr), L1, L2. reflexivity.
  - inversion HN as [| | |? Us| |]; subst. exists 1%nat. intros [|f] Hf; [lia|]. cbn [Json.write value]. rewrite quoted_app, skip_not by reflexivity. cbn [Ascii.eqb Bool.eqb quote]. rewrite (literal_escape s Us). reflexivity.
  - inversion HN as [| | | |? NL|]; subst. cbn [deep] in Dp. destruct l as [|w l].
    + exists 1%nat. intros [|f] Hf; [lia|]. cbn [Json.write value append]. rewrite skip_not by reflexivity. cbn [Ascii.eqb Bool.eqb]. destruct (N.eqb_spec room 0); [cbn in Dp; lia|]. rewrite skip_not by reflexivity. reflexivity.
    + cbn [map fold_right] in Dp. inversion IH as [|? ? IHw IHl]; subst. inversion NL as [|? ? NW NL']; subst.
      assert (RL : Forall readsBack l). { rewrite Forall_forall in *. intros x Hx. apply IHl; auto. }
      assert (DL : Forall (fun w => deep w <= room - 1) l). { assert (K : fold_right N.max 0 (map deep l) <= room - 1) by lia. apply max_le in K. rewrite Forall_forall in *. intros x Hx. apply K, in_map, Hx. }
      destruct (items_back d room r l RL DL Hr w [] (IHw NW) ltac:(lia)) as (f0 & F0). exists (S f0). intros [|f] Hf; [lia|]. rewrite write_list. cbn [append]. cbn [value]. rewrite skip_not by reflexivity. cbn [Ascii.eqb Bool.eqb]. destruct (N.eqb_spec room 0); [lia|].
      rewrite !app_str, skip_space by apply line_space.
      assert (WH : exists c t, write (S d) w ++ moreItems d l ++ r = String c t /\ space c = false /\ Ascii.eqb c "]" = false).
      { destruct w as [|[]|x|s|[|]|[|]]; try (do 2 eexists; repeat split; reflexivity). inversion NW as [| |? Fx| | |]; subst. destruct (law_show Laws x Fx) as [L1 _]. destruct (number_every _ L1) as [_ (c & a & EA & L4)]. cbn [Json.write]. rewrite EA. do 2 eexists. split; [reflexivity|].
        destruct L4 as [L4| ->]; [|split; reflexivity]. apply between_spec in L4. split; [unfold space; repeat match goal with |- context [?a =? ?b] => destruct (N.eqb_spec a b); [lia|] end; reflexivity|]. apply Ascii.eqb_neq. intros ->. cbn in L4. lia. }
      destruct WH as (c & t & EW & SW & BW). rewrite EW, skip_not by exact SW. rewrite BW, <- EW. apply F0. lia.
  - inversion HN as [| | | | |? ND UL NL]; subst. cbn [deep] in Dp. destruct l as [|[k w] l].
    + exists 1%nat. intros [|f] Hf; [lia|]. cbn [Json.write value append]. rewrite skip_not by reflexivity. cbn [Ascii.eqb Bool.eqb]. destruct (N.eqb_spec room 0); [cbn in Dp; lia|]. rewrite skip_not by reflexivity. reflexivity.
    + cbn [map fold_right snd] in Dp. inversion IH as [|? ? IHw IHl]; subst. inversion NL as [|? ? NW NL']; subst. inversion UL as [|? ? UK UL']; subst. cbn [fst snd] in *.
      assert (RL : Forall (fun e => readsBack (snd e)) l). { rewrite Forall_forall in *. intros x Hx. apply IHl; auto. }
      assert (DL : Forall (fun e => deep (snd e) <= room - 1) l). { assert (K : fold_right N.max 0 (map (fun e => deep (snd e)) l) <= room - 1) by lia. apply max_le in K. rewrite Forall_forall in *. intros x Hx. apply K. apply (in_map (fun e => deep (snd e))), Hx. }
      destruct (entries_back d room r l UL' RL DL Hr k w [] ND UK (IHw NW) ltac:(lia)) as (f0 & F0). exists (S f0). intros [|f] Hf; [lia|]. rewrite write_map. cbn [append]. cbn [value]. rewrite skip_not by reflexivity. cbn [Ascii.eqb Bool.eqb]. destruct (N.eqb_spec room 0); [lia|].
      cbn [fst snd]. rewrite !app_str, skip_space by apply line_space. rewrite quoted_app, skip_not by reflexivity. cbn [Ascii.eqb Bool.eqb quote]. change (String """" ?s) with (String quote s). rewrite <- quoted_app. apply F0. lia.
Qed.
End Layout.

(** *** the reader ends *)
Lemma skip_len s : (String.length (skip s) <= String.length s)%nat. Proof. induction s as [|c s IH]; [apply le_n|]. cbn [skip]. destruct (space c); cbn [String.length] in *; lia. Qed.
Lemma after_len w : forall s r, after w s = Some r -> (String.length r <= String.length s)%nat.
Proof. induction w as [|c w IH]; intros s r; cbn [after]; [intros [= ->]; lia|]. destruct s as [|d s]; [discriminate|]. destruct (Ascii.eqb c d); [|discriminate]. intros E. apply IH in E. cbn [String.length]. lia. Qed.
Lemma span_len s : forall a b, span s = (a, b) -> (String.length s = String.length a + String.length b)%nat.
Proof. induction s as [|c s IH]; intros a b; cbn [span]; [intros [= <- <-]; reflexivity|]. destruct (numberByte c); [|intros [= <- <-]; reflexivity]. destruct (span s) as [a' b']. intros [= <- <-]. cbn [String.length]. rewrite (IH a' b' eq_refl). reflexivity. Qed.
Lemma number_len a : isNumber a = true -> (1 <= String.length a)%nat. Proof. destruct a; [discriminate|cbn; lia]. Qed.

Lemma value_S f room s : value T (S f) room s =
      match skip s with
      | "" => Err
      | String c r =>
          if Ascii.eqb c "{" then
            if room =? 0 then Err else
            match skip r with
            | String d r2 => if Ascii.eqb d "}" then Ok (JMap [], r2) else entries T f room (skip r) []
            | "" => Err
            end
          else if Ascii.eqb c "[" then
            if room =? 0 then Err else
            match skip r with
            | String d r2 => if Ascii.eqb d "]" then Ok (JList [], r2) else elements T f room (skip r) []
            | "" => Err
            end
          else if Ascii.eqb c quote then match literal 0 r with Some (t, r) => Ok (JText t, r) | None => Err end
          else if Ascii.eqb c "n" then match after "ull" r with Some r => Ok (JNull, r) | None => Err end
          else if Ascii.eqb c "t" then match after "rue" r with Some r => Ok (JBool true, r) | None => Err end
          else if Ascii.eqb c "f" then match after "alse" r with Some r => Ok (JBool false, r) | None => Err end
          else let '(a, b) := span (String c r) in if isNumber a then match jread T a with Some x => Ok (JNum x, b) | None => Err end else Err
      end.
Proof. reflexivity. Qed.
Lemma entries_S f room s acc : entries T (S f) room s acc =
      match s with
      | "" => Err
      | String c r =>
          if Ascii.eqb c quote then
            match literal 0 r with
            | None => Err
            | Some (k, r) =>
                match skip r with
                | "" => Err
                | String c r =>
                    if Ascii.eqb c ":" then
                      bind (value T f (room - 1) r) (fun '(v, r) =>
                      match skip r with
                      | "" => Err
                      | String c r => if Ascii.eqb c "," then entries T f room (skip r) (set k v acc) else if Ascii.eqb c "}" then Ok (JMap (set k v acc), r) else Err
                      end)
                    else Err
                end
            end
          else Err
      end.
Proof. reflexivity. Qed.
Lemma elements_S f room s acc : elements T (S f) room s acc =
      bind (value T f (room - 1) s) (fun '(v, r) =>
      match skip r with
      | "" => Err
      | String c r => if Ascii.eqb c "," then elements T f room r (acc ++ [v])%list else if Ascii.eqb c "]" then Ok (JList (acc ++ [v])%list, r) else Err
      end).
Proof. reflexivity. Qed.

Definition shorter (n : nat) (o : res (jv * string)) : Prop := match o with OutOfFuel => False | Ok (_, r) => (String.length r < n)%nat | _ => True end.
Lemma shorter_le n m o : (n <= m)%nat -> shorter n o -> shorter m o. Proof. destruct o as [[]| | |]; cbn; lia. Qed.
Lemma steps f :
  (forall room s, (2 * String.length s < f)%nat -> shorter (String.length s) (value T f room s)) /\
  (forall room s acc, (2 * String.length s < f)%nat -> shorter (String.length s) (entries T f room s acc)) /\
  (forall room s acc, (2 * String.length s + 1 < f)%nat -> shorter (String.length s) (elements T f room s acc)).
Proof.
  induction f as [|f (IHv & IHe & IHl)]; [repeat split; intros; lia|]. split; [|split].
  - intros room s Hs. rewrite !value_S. pose proof (skip_len s) as K. destruct (skip s) as [|c r]; [exact I|]. cbn [String.length] in K. pose proof (skip_len r) as K2.
    destruct (Ascii.eqb c "{"). { destruct (room =? 0); [exact I|]. destruct (skip r) as [|d r2]; [exact I|]. cbn [String.length] in K2. destruct (Ascii.eqb d "}"); [cbn; lia|]. eapply shorter_le; [|apply IHe; cbn [String.length]; lia]. cbn [String.length]. lia. }
    destruct (Ascii.eqb c "["). { destruct (room =? 0); [exact I|]. destruct (skip r) as [|d r2]; [exact I|]. cbn [String.length] in K2. destruct (Ascii.eqb d "]"); [cbn; lia|]. eapply shorter_le; [|apply IHl; cbn [String.length]; lia]. cbn [String.length]. lia. }
    destruct (Ascii.eqb c quote). { destruct (literal 0 r) as [[t r']|] eqn:E; [|exact I]. apply (literal_utf8 _ _ _ _ (le_n _)) in E. cbn. lia. }
    destruct (Ascii.eqb c "n"). { destruct (after "ull" r) as [r'|] eqn:E; [|exact I]. apply after_len in E. cbn. lia. }
    destruct (Ascii.eqb c "t"). { destruct (after "rue" r) as [r'|] eqn:E; [|exact I]. apply after_len in E. cbn. lia. }
    destruct (Ascii.eqb c "f"). { destruct (after "alse" r) as [r'|] eqn:E; [|exact I]. apply after_len in E. cbn. lia. }
    destruct (span (String c r)) as [a b] eqn:E. apply span_len in E. cbn [String.length] in E. destruct (isNumber a) eqn:EN; [|exact I]. apply number_len in EN. destruct (jread T a); [cbn; lia|exact I].
  - intros room s acc Hs. rewrite !entries_S. destruct s as [|c r]; [exact I|]. cbn [String.length] in *. destruct (Ascii.eqb c quote); [|exact I]. destruct (literal 0 r) as [[k r1]|] eqn:E; [|exact I]. apply (literal_utf8 _ _ _ _ (le_n _)) in E. destruct E as [_ E].
    pose proof (skip_len r1) as K1. destruct (skip r1) as [|c2 r2]; [exact I|]. cbn [String.length] in K1. destruct (Ascii.eqb c2 ":"); [|exact I].
    pose proof (IHv (room - 1) r2 ltac:(lia)) as HV. destruct (value T f (room - 1) r2) as [[v r3]| | |]; try exact HV. cbn [bind shorter] in *. pose proof (skip_len r3) as K3. destruct (skip r3) as [|c4 r4]; [exact I|]. cbn [String.length] in K3.
    destruct (Ascii.eqb c4 ","). { pose proof (skip_len r4) as K4. eapply shorter_le; [|apply IHe; lia]. lia. }
    destruct (Ascii.eqb c4 "}"); [cbn; lia|exact I].
  - intros room s acc Hs. rewrite !elements_S. pose proof (IHv (room - 1) s ltac:(lia)) as HV. destruct (value T f (room - 1) s) as [[v r3]| | |]; try exact HV. cbn [bind shorter] in *. pose proof (skip_len r3) as K3. destruct (skip r3) as [|c4 r4]; [exact I|]. cbn [String.length] in K3.
    destruct (Ascii.eqb c4 ","). { eapply shorter_le; [|apply IHl; lia]. lia. }
    destruct (Ascii.eqb c4 "]"); [cbn; lia|exact I].
Qed.

(** more fuel does not change the answer *)
Lemma mono f :
  (forall room s, value T f room s <> OutOfFuel -> value T (S f) room s = value T f room s) /\
  (forall room s acc, entries T f room s acc <> OutOfFuel -> entries T (S f) room s acc = entries T f room s acc) /\
  (forall room s acc, elements T f room s acc <> OutOfFuel -> elements T (S f) room s acc = elements T f room s acc).
Proof.
  induction f as [|f (IHv & IHe & IHl)]; [repeat split; intros; cbn in *; congruence|]. split; [|split].
  - intros room s. rewrite !value_S. destruct (skip s) as [|c r]; [reflexivity|].
    destruct (Ascii.eqb c "{"). { destruct (room =? 0); [reflexivity|]. destruct (skip r) as [|d r2]; [reflexivity|]. destruct (Ascii.eqb d "}"); [reflexivity|]. apply IHe. }
    destruct (Ascii.eqb c "["). { destruct (room =? 0); [reflexivity|]. destruct (skip r) as [|d r2]; [reflexivity|]. destruct (Ascii.eqb d "]"); [reflexivity|]. apply IHl. }
    reflexivity.
  - intros room s acc. rewrite !entries_S. destruct s as [|c r]; [reflexivity|]. destruct (Ascii.eqb c quote); [|reflexivity]. destruct (literal 0 r) as [[k r1]|]; [|reflexivity].
    destruct (skip r1) as [|c2 r2]; [reflexivity|]. destruct (Ascii.eqb c2 ":"); [|reflexivity]. intros H. assert (HV : value T f (room - 1) r2 <> OutOfFuel) by (intros E; rewrite E in H; apply H; reflexivity). rewrite (IHv _ _ HV).
    destruct (value T f (room - 1) r2) as [[v r3]| | |]; try reflexivity. cbn [bind] in *. destruct (skip r3) as [|c4 r4]; [reflexivity|]. destruct (Ascii.eqb c4 ","); [apply IHe, H|reflexivity].
  - intros room s acc. rewrite !elements_S. intros H. assert (HV : value T f (room - 1) s <> OutOfFuel) by (intros E; rewrite E in H; apply H; reflexivity). rewrite (IHv _ _ HV).
    destruct (value T f (room - 1) s) as [[v r3]| | |]; try reflexivity. cbn [bind] in *. destruct (skip r3) as [|c4 r4]; [reflexivity|]. destruct (Ascii.eqb c4 ","); [apply IHl, H|reflexivity].
Qed.
Lemma value_fuel s room f : (2 * String.length s < f)%nat -> value T f room s = value T (S (2 * String.length s)) room s.
Proof.
  intros H. replace f with ((f - S (2 * String.length s)) + S (2 * String.length s))%nat by lia. induction (f - S (2 * String.length s))%nat as [|k IH]; [reflexivity|]. cbn [Nat.add]. rewrite (proj1 (mono _)); [exact IH|].
  intros E. pose proof (proj1 (steps (k + S (2 * String.length s))) room s ltac:(lia)) as K. rewrite E in K. exact K.
Qed.

(** *** what is read is nice *)
Lemma set_keys (k : string) (v : jv) l : forall x, In x (map fst (set k v l)) -> x = k \/ In x (map fst l).
Proof. induction l as [|[k' v'] l IH]; intros x; cbn [set]; [intros [<-|[]]; auto|]. destruct (String.eqb_spec k k') as [->|N]; cbn [map fst]; [intros [<-|H]; cbn; auto|]. intros [<-|H]; [right; left; reflexivity|]. apply IH in H. destruct H; [auto|right; right; assumption]. Qed.
Lemma set_NoDup (k : string) (v : jv) l : NoDup (map fst l) -> NoDup (map fst (set k v l)).
Proof.
  induction l as [|[k' v'] l IH]; intros H; cbn [set]; [constructor; [intros []|constructor]|]. cbn [map fst] in H. inversion H as [|? ? H1 H2]; subst. destruct (String.eqb_spec k k') as [->|N]; cbn [map fst]; [constructor; assumption|].
  constructor; [|apply IH, H2]. intros HI. apply set_keys in HI. destruct HI; [congruence|contradiction].
Qed.
Lemma set_Forall (P : string * jv -> Prop) (k : string) (v : jv) l : (forall k', P (k', v) \/ k' <> k) -> Forall P l -> Forall P (set k v l).
Proof.
  intros H. induction l as [|[k' v'] l IH]; intros HF; cbn [set]; [constructor; [destruct (H k); [assumption|congruence]|constructor]|]. inversion HF as [|? ? H1 H2]; subst. destruct (String.eqb_spec k k') as [->|N]; constructor; auto. destruct (H k'); [assumption|congruence].
Qed.
Lemma deep_list_le l room : room <> 0 -> Forall (fun w => deep w <= room - 1) l -> deep (JList l) <= room.
Proof. intros R H. cbn [deep]. assert (fold_right N.max 0 (map deep l) <= room - 1); [|lia]. induction H; cbn [map fold_right]; lia. Qed.
Lemma deep_map_le l room : room <> 0 -> Forall (fun e => deep (snd e) <= room - 1) l -> deep (JMap l) <= room.
Proof. intros R H. cbn [deep]. assert (fold_right N.max 0 (map (fun e => deep (snd e)) l) <= room - 1); [|lia]. induction H; cbn [map fold_right]; lia. Qed.
Definition fits (room : N) (o : res (jv * string)) : Prop := forall v r, o = Ok (v, r) -> nice v /\ deep v <= room.
Lemma reads_nice f :
  (forall room s, fits room (value T f room s)) /\
  (forall room s acc, room <> 0 -> nice (JMap acc) -> Forall (fun e => deep (snd e) <= room - 1) acc -> fits room (entries T f room s acc)) /\
  (forall room s acc, room <> 0 -> nice (JList acc) -> Forall (fun w => deep w <= room - 1) acc -> fits room (elements T f room s acc)).
Proof.
  induction f as [|f (IHv & IHe & IHl)]; [split; [|split]; intros; intros ? ? E; discriminate E|]. split; [|split].
  - intros room s v r. rewrite !value_S. destruct (skip s) as [|c r0]; [discriminate|].
    destruct (Ascii.eqb c "{"). { destruct (N.eqb_spec room 0); [discriminate|]. destruct (skip r0) as [|d r2]; [discriminate|]. destruct (Ascii.eqb d "}"); [intros [= <- <-]; split; [constructor; constructor|cbn; lia]|]. apply IHe; [assumption|constructor; constructor|constructor]. }
    destruct (Ascii.eqb c "["). { destruct (N.eqb_spec room 0); [discriminate|]. destruct (skip r0) as [|d r2]; [discriminate|]. destruct (Ascii.eqb d "]"); [intros [= <- <-]; split; [constructor; constructor|cbn; lia]|]. apply IHl; [assumption|constructor; constructor|constructor]. }
    destruct (Ascii.eqb c quote). { destruct (literal 0 r0) as [[t r']|] eqn:E; [|discriminate]. intros [= <- <-]. apply (literal_utf8 _ _ _ _ (le_n _)) in E. split; [constructor; apply E|cbn; lia]. }
    destruct (Ascii.eqb c "n"). { destruct (after "ull" r0); [|discriminate]. intros [= <- <-]. split; [constructor|cbn; lia]. }
    destruct (Ascii.eqb c "t"). { destruct (after "rue" r0); [|discriminate]. intros [= <- <-]. split; [constructor|cbn; lia]. }
    destruct (Ascii.eqb c "f"). { destruct (after "alse" r0); [|discriminate]. intros [= <- <-]. split; [constructor|cbn; lia]. }
    destruct (span (String c r0)) as [a b]. destruct (isNumber a); [|discriminate]. destruct (jread T a) as [x|] eqn:E; [|discriminate]. intros [= <- <-]. split; [constructor; apply (law_read Laws _ _ E)|cbn; lia].
  - intros room s acc R HA DA v r. rewrite !entries_S. destruct s as [|c s]; [discriminate|]. destruct (Ascii.eqb c quote); [|discriminate]. destruct (literal 0 s) as [[k r1]|] eqn:E; [|discriminate]. apply (literal_utf8 _ _ _ _ (le_n _)) in E. destruct E as [E _].
    destruct (skip r1) as [|c2 r2]; [discriminate|]. destruct (Ascii.eqb c2 ":"); [|discriminate]. destruct (value T f (room - 1) r2) as [[w r3]| | |] eqn:EV; try discriminate. cbn [bind]. apply IHv in EV. destruct EV as [NW DW]. inversion HA as [| | | | |? A1 A2 A3]; subst.
    assert (HA' : nice (JMap (set k w acc))). { constructor; [apply set_NoDup, A1|apply set_Forall; [|exact A2]|apply set_Forall; [|exact A3]]; intros k'; [|left; exact NW]. destruct (string_dec k' k) as [->|]; [left; exact E|right; assumption]. }
    assert (DA' : Forall (fun e => deep (snd e) <= room - 1) (set k w acc)) by (apply set_Forall; [intros k'; left; exact DW|exact DA]).
    destruct (skip r3) as [|c4 r4]; [discriminate|]. destruct (Ascii.eqb c4 ","); [apply IHe; assumption|]. destruct (Ascii.eqb c4 "}"); [|discriminate]. intros [= <- <-]. split; [exact HA'|apply deep_map_le; assumption].
  - intros room s acc R HA DA v r. rewrite !elements_S. destruct (value T f (room - 1) s) as [[w r3]| | |] eqn:EV; try discriminate. cbn [bind]. apply IHv in EV. destruct EV as [NW DW]. inversion HA as [| | | |? A1|]; subst.
    assert (HA' : nice (JList (acc ++ [w]))) by (constructor; apply Forall_app; split; [exact A1|constructor; [exact NW|constructor]]).
    assert (DA' : Forall (fun w => deep w <= room - 1) (acc ++ [w])%list) by (apply Forall_app; split; [exact DA|constructor; [exact DW|constructor]]).
    destruct (skip r3) as [|c4 r4]; [discriminate|]. destruct (Ascii.eqb c4 ","); [apply IHl; assumption|]. destruct (Ascii.eqb c4 "]"); [|discriminate]. intros [= <- <-]. split; [exact HA'|apply deep_list_le; assumption].
Qed.

(** *** the same value: the order of the entries of a map is no part of it *)
Inductive same : jv -> jv -> Prop :=
| same_null : same JNull JNull
| same_bool b : same (JBool b) (JBool b)
| same_num x : same (JNum x) (JNum x)
| same_text s : same (JText s) (JText s)
| same_list l m : Forall2 same l m -> same (JList l) (JList m)
| same_map l k m : Forall2 (fun a b => fst a = fst b /\ same (snd a) (snd b)) l k -> Permutation k m -> same (JMap l) (JMap m).

Lemma same_ordered v : same v (ordered T v).
Proof.
  induction v as [|b|x|s|l IH|l IH] using jv_rect'; try constructor.
  - induction IH; cbn [map]; constructor; assumption.
  - cbn [ordered]. apply (same_map l (map (fun e => (fst e, ordered T (snd e))) l)); [|symmetry; apply sortKeys_perm]. induction IH; cbn [map]; constructor; [split; [reflexivity|assumption]|assumption].
Qed.
Lemma Forall2_keys l k : Forall2 (fun a b : string * jv => fst a = fst b /\ same (snd a) (snd b)) l k -> map fst l = map fst k.
Proof. induction 1 as [|a b l k [H _] _ IH]; [reflexivity|]. cbn [map]. rewrite H, IH. reflexivity. Qed.
Lemma same_refl v : same v v.
Proof.
  induction v as [|b|x|s|l IH|l IH] using jv_rect'; try constructor.
  - induction IH; constructor; assumption.
  - apply (same_map l l); [|apply Permutation_refl]. induction IH; constructor; [split; [reflexivity|assumption]|assumption].
Qed.
(** the text does not depend on the order of the entries *)
Lemma ordered_same v : forall w, nice v -> same v w -> ordered T v = ordered T w.
Proof.
  induction v as [|b|x|s|l IH|l IH] using jv_rect'; intros w HN HS; inversion HS as [| | | |? m HF|? k m HF HP]; subst; try reflexivity.
  - cbn [ordered]. f_equal. inversion HN as [| | | |? NL|]; subst. clear HN HS. revert IH NL. induction HF as [|a b l m H HF IHF]; intros IH NL; [reflexivity|]. inversion IH; subst. inversion NL; subst. cbn [map]. f_equal; auto.
  - cbn [ordered]. f_equal. inversion HN as [| | | | |? ND _ NL]; subst. clear HN HS.
    assert (E : map (fun e => (fst e, ordered T (snd e))) l = map (fun e => (fst e, ordered T (snd e))) k). { clear HP ND. revert IH NL. induction HF as [|a b l k [H1 H2] HF IHF]; intros IH NL; [reflexivity|]. inversion IH; subst. inversion NL; subst. cbn [map]. f_equal; [rewrite H1; f_equal; auto|auto]. }
    assert (KE : forall l : list (string * jv), map fst (map (fun e => (fst e, ordered T (snd e))) l) = map fst l) by (intros q; rewrite map_map; reflexivity).
    rewrite E. apply sortKeys_unique; [apply Permutation_map, HP|]. rewrite KE, <- (Forall2_keys l k HF). exact ND.
Qed.
Lemma same_nice v : forall w, nice v -> same v w -> nice w.
Proof.
  induction v as [|b|x|s|l IH|l IH] using jv_rect'; intros w HN HS; inversion HS as [| | | |? m HF|? k m HF HP]; subst; try exact HN.
  - inversion HN as [| | | |? NL|]; subst. constructor. clear HN HS. revert IH NL. induction HF as [|a b l m H HF IHF]; intros IH NL; [constructor|]. inversion IH; subst. inversion NL; subst. constructor; auto.
  - inversion HN as [| | | | |? ND UL NL]; subst. clear HN HS. constructor.
    + apply (Permutation_NoDup (Permutation_map fst HP)). rewrite <- (Forall2_keys l k HF). exact ND.
    + apply (Permutation_Forall HP). clear - UL HF. induction HF as [|a b l k [H1 H2] HF IHF]; [constructor|]. inversion UL; subst. constructor; [rewrite <- H1; assumption|auto].
    + apply (Permutation_Forall HP). clear - IH NL HF. induction HF as [|a b l k [H1 H2] HF IHF]; [constructor|]. inversion IH; subst. inversion NL; subst. constructor; auto.
Qed.
Lemma max_perm (l m : list N) : Permutation l m -> fold_right N.max 0 l = fold_right N.max 0 m.
Proof. induction 1; cbn [fold_right]; lia. Qed.
Lemma same_deep v : forall w, same v w -> deep v = deep w.
Proof.
  induction v as [|b|x|s|l IH|l IH] using jv_rect'; intros w HS; inversion HS as [| | | |? m HF|? k m HF HP]; subst; try reflexivity; cbn [deep]; f_equal.
  - clear HS. revert IH. induction HF as [|a b l m H HF IHF]; intros IH; [reflexivity|]. inversion IH; subst. cbn [map fold_right]. f_equal; auto.
  - transitivity (fold_right N.max 0 (map (fun e => deep (snd e)) k)); [|apply max_perm, Permutation_map, HP]. clear HS HP. revert IH. induction HF as [|a b l k [H1 H2] HF IHF]; intros IH; [reflexivity|]. inversion IH; subst. cbn [map fold_right]. f_equal; auto.
Qed.
Lemma nice_writable v : nice v -> writable T v = true.
Proof.
  induction v as [|b|x|s|l IH|l IH] using jv_rect'; intros HN; inversion HN as [| |? H| |? NL|? ND UL NL]; subst; try reflexivity; cbn [writable].
  - exact H.
  - apply forallb_forall. intros x Hx. rewrite Forall_forall in *. auto.
  - apply forallb_forall. intros x Hx. rewrite Forall_forall in *. auto.
Qed.
Lemma ordered_ordered v : nice v -> ordered T (ordered T v) = ordered T v.
Proof. intros H. symmetry. apply ordered_same; [exact H|apply same_ordered]. Qed.
Lemma same_sym v : nice v -> forall w, same v w -> same w v.
Proof.
  induction v as [|b|x|s|l IH|l IH] using jv_rect'; intros HN w HS; inversion HS as [| | | |? m HF|? k m HF HP]; subst; try constructor.
  - inversion HN as [| | | |? NL|]; subst. clear HN HS. revert IH NL. induction HF as [|a b l m H HF IHF]; intros IH NL; [constructor|]. inversion IH; subst. inversion NL; subst. constructor; auto.
  - inversion HN as [| | | | |? ND UL NL]; subst. clear HN HS ND UL.
    assert (G : Forall2 (fun a b => fst a = fst b /\ same (snd a) (snd b)) k l). { clear HP. revert IH NL. induction HF as [|a b l k [H1 H2] HF IHF]; intros IH NL; [constructor|]. inversion IH; subst. inversion NL; subst. constructor; [split; [congruence|auto]|auto]. }
    destruct (Permutation_Forall2 HP G) as (l' & P2 & G2). apply (same_map m l'); [exact G2|symmetry; exact P2].
Qed.
Lemma same_trans u : forall v w, same u v -> same v w -> same u w.
Proof.
  induction u as [|b|x|s|l IH|l IH] using jv_rect'; intros v w H1 H2; inversion H1 as [| | | |? m HF|? k m HF HP]; subst; try exact H2.
  - inversion H2 as [| | | |? n HG|]; subst. constructor. clear H1 H2. revert n HG IH. induction HF as [|a b l m H HF IHF]; intros n HG IH; inversion HG; subst; constructor; inversion IH; subst; eauto.
  - inversion H2 as [| | | | |? k2 n HG HQ]; subst. clear H1 H2. destruct (Permutation_Forall2 (Permutation_sym HP) HG) as (k3 & P3 & G3). apply (same_map l k3); [|transitivity k2; [symmetry; exact P3|exact HQ]].
    clear HP HG HQ P3 k2 m n. revert k3 G3 IH. induction HF as [|a b l k [A1 A2] HF IHF]; intros k3 G3 IH; inversion G3 as [|? c ? ? [B1 B2] G3']; subst; constructor; inversion IH; subst; [split; [congruence|eauto]|eauto].
Qed.
(** reading what is written *)
Lemma unmarshal_write ind v : nice v -> deep v <= 10000 -> value T (S (2 * String.length (write T ind 0 v))) 10000 (write T ind 0 v) = Ok (v, "").
Proof.
  intros HN HD. destruct (write_back ind v HN 0%nat 10000 "" HD I) as (f0 & F0). rewrite app_nil_str in F0. rewrite <- (value_fuel (write T ind 0 v) 10000 (Nat.max f0 (S (2 * String.length (write T ind 0 v))))); [|lia]. apply F0. lia.
Qed.
End Proofs.
