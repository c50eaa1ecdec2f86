(** C96: a map written as JSON is read back as the same map. *)
From Coq Require Import String Ascii List NArith Bool Lia Permutation Eqdep_dec.
From Verif Require Import Num DynModel Comments Json JsonProofs.
From Verif Require Prop_C75.
Import ListNotations.
Local Open Scope string_scope.
Local Open Scope N_scope.

(** *** the spec *)
Definition byte (n : N) (s : string) : string := String (ascii_of_N n) s.
(** a text of characters: the well-formed byte sequences of the Unicode standard (table 3-7) *)
Inductive characters : string -> Prop :=
| ch_nil : characters ""
| ch_1 a s : a < 128 -> characters s -> characters (byte a s)
| ch_2 a b s : 194 <= a <= 223 -> 128 <= b <= 191 -> characters s -> characters (byte a (byte b s))
| ch_3 a b c s : a = 224 /\ 160 <= b <= 191 \/ (225 <= a <= 236 \/ 238 <= a <= 239) /\ 128 <= b <= 191 \/ a = 237 /\ 128 <= b <= 159 -> 128 <= c <= 191 -> characters s -> characters (byte a (byte b (byte c s)))
| ch_4 a b c d s : a = 240 /\ 144 <= b <= 191 \/ 241 <= a <= 243 /\ 128 <= b <= 191 \/ a = 244 /\ 128 <= b <= 143 -> 128 <= c <= 191 -> 128 <= d <= 191 -> characters s -> characters (byte a (byte b (byte c (byte d s)))).
(** the number of a character *)
Definition point (s : string) : option N :=
  match s with
  | String a "" => Some (code a)
  | String a (String b "") => Some ((code a - 192) * 64 + (code b - 128))
  | String a (String b (String c "")) => Some ((code a - 224) * 4096 + (code b - 128) * 64 + (code c - 128))
  | String a (String b (String c (String d ""))) => Some ((code a - 240) * 262144 + (code b - 128) * 4096 + (code c - 128) * 64 + (code d - 128))
  | _ => None
  end.

(** [c] is the hexadecimal digit for [n] *)
Definition hexOf (c : ascii) (n : N) : Prop := String.get (N.to_nat n) "0123456789abcdef" = Some c \/ String.get (N.to_nat n) "0123456789ABCDEF" = Some c.
Definition hexText (a b c d : ascii) : string := String "\" (String "u" (String a (String b (String c (String d ""))))).
(** a text without the start of a comment *)
Definition calmText (s : string) : Prop := ~ Prop_C75.has "//" s /\ ~ Prop_C75.has "/*" s.
Section Spec.
Context (T : NumText).
Notation jv := (jv T).
(** what is inside a value: the value itself, and what is inside the values of its lists and maps *)
Inductive inside (v : jv) : jv -> Prop :=
| inside_self : inside v v
| inside_list w l : In w l -> inside v w -> inside v (JList l)
| inside_map k w l : In (k, w) l -> inside v w -> inside v (JMap l).
(** no key occurs twice, as in every Go map *)
Definition goMap (m : list (string * jv)) : Prop := forall l, inside (JMap l) (JMap m) -> NoDup (map fst l).
(** all texts satisfy [P], keys too *)
Definition texts (P : string -> Prop) (m : list (string * jv)) : Prop := (forall s, inside (JText s) (JMap m) -> P s) /\ (forall l k, inside (JMap l) (JMap m) -> In k (map fst l) -> P k).
Definition finite (m : list (string * jv)) : Prop := forall x, inside (JNum x) (JMap m) -> jfinite T x = true.
(** lists and maps are not nested deeper than [n]: no chain of more *)
Inductive nested : nat -> jv -> Prop :=
| nested_0 v : nested 0 v
| nested_list n w l : In w l -> nested n w -> nested (S n) (JList l)
| nested_map n k w l : In (k, w) l -> nested n w -> nested (S n) (JMap l)
| nested_list1 l : nested 1 (JList l)
| nested_map1 l : nested 1 (JMap l).
Definition depth (n : N) (m : list (string * jv)) : Prop := forall k, nested k (JMap m) -> N.of_nat k <= n.
End Spec.
Arguments inside {T}. Arguments goMap {T}. Arguments texts {T}. Arguments finite {T}. Arguments depth {T}. Arguments nested {T}.

(** *** characters *)
Lemma str_app_inj a : forall b r s, String.length a = String.length b -> a ++ r = b ++ s -> a = b /\ r = s.
Proof. induction a as [|c a IH]; intros [|d b] r s HL HE; try discriminate; [split; [reflexivity|exact HE]|]. cbn in HL, HE. injection HE as -> HE. destruct (IH b r s ltac:(lia) HE) as [-> ->]. split; reflexivity. Qed.
Lemma byte_code c s : String c s = byte (code c) s. Proof. unfold byte. rewrite of_code. reflexivity. Qed.
Lemma rune_step s k : runeLen s = S k -> exists t r, s = t ++ r /\ String.length t = S k /\ forall r', characters r' -> characters (t ++ r').
Proof.
  unfold runeLen. destruct s as [|a r]; [discriminate|]. destruct (N.ltb_spec (code a) 128). { intros [= <-]. exists (String a ""), r. repeat split. intros r' H'. cbn [append]. rewrite byte_code. constructor; assumption. }
  destruct r as [|b r]; [discriminate|]. destruct (between 194 223 a) eqn:E2.
  { destruct (between 128 191 b) eqn:Eb; [|discriminate]. intros [= <-]. apply between_spec in E2, Eb. exists (String a (String b "")), r. repeat split. intros r' H'. cbn [append]. rewrite (byte_code b), (byte_code a). apply ch_2; assumption. }
  destruct (between 224 239 a) eqn:E3.
  { destruct (between _ _ b) eqn:Eb; [|discriminate]. destruct r as [|c r]; [discriminate|]. destruct (between 128 191 c) eqn:Ec; [|discriminate]. intros [= <-]. apply between_spec in E3, Eb, Ec. exists (String a (String b (String c ""))), r. repeat split. intros r' H'. cbn [append]. rewrite (byte_code c), (byte_code b), (byte_code a). apply ch_3; [|assumption|assumption].
    destruct (N.eqb_spec (code a) 224); destruct (N.eqb_spec (code a) 237); lia. }
  destruct (between 240 244 a) eqn:E4; [|discriminate]. destruct (between _ _ b) eqn:Eb; [|discriminate]. destruct r as [|c [|d r]]; [discriminate|discriminate|]. destruct (between 128 191 c) eqn:Ec; [|discriminate]. destruct (between 128 191 d) eqn:Ed; [|discriminate]. intros [= <-]. apply between_spec in E4, Eb, Ec, Ed.
  exists (String a (String b (String c (String d "")))), r. repeat split. intros r' H'. cbn [append]. rewrite (byte_code d), (byte_code c), (byte_code b), (byte_code a). apply ch_4; [|assumption|assumption|assumption].
  destruct (N.eqb_spec (code a) 240); destruct (N.eqb_spec (code a) 244); lia.
Qed.
Lemma utf8_characters s : utf8 s -> characters s.
Proof.
  induction 1 as [|n s Hn Hs IH]; [constructor|]. pose proof (runeLen_encode n s Hn) as R. destruct (String.length (encodeRune n)) as [|k] eqn:EL.
  - destruct (encodeRune n) eqn:E; [exact IH|discriminate].
  - destruct (rune_step _ _ R) as (t & r & E & L & G). destruct (str_app_inj t (encodeRune n) r s ltac:(lia) (eq_sym E)) as [-> ->]. apply G, IH.
Qed.
Lemma characters_len s : characters s -> s = "" \/ exists t r k, s = t ++ r /\ String.length t = S k /\ runeLen s = S k /\ characters r.
Proof.
  intros H. inversion H as [|a r Ha Hr|a b r Ha Hb Hr|a b c r Ha Hc Hr|a b c d r Ha Hc Hd Hr]; subst; [left; reflexivity|right..].
  - exists (byte a ""), r, 0%nat. repeat split; [|assumption]. unfold byte, runeLen. rewrite code_of by lia. rewrite (proj2 (N.ltb_lt _ _)) by lia. reflexivity.
  - exists (byte a (byte b "")), r, 1%nat. repeat split; [|assumption]. unfold byte, runeLen, between. rewrite !code_of by lia. rewrite (proj2 (N.ltb_ge _ _)) by lia. rewrite !in_range by lia. reflexivity.
  - exists (byte a (byte b (byte c ""))), r, 2%nat. repeat split; [|assumption]. unfold byte, runeLen, between. rewrite !code_of by lia. rewrite (proj2 (N.ltb_ge _ _)) by lia. rewrite (out_range 194) by lia. rewrite (in_range 224) by lia.
    destruct (N.eqb_spec a 224); destruct (N.eqb_spec a 237); rewrite !in_range by lia; reflexivity.
  - exists (byte a (byte b (byte c (byte d "")))), r, 3%nat. repeat split; [|assumption]. unfold byte, runeLen, between. rewrite !code_of by lia. rewrite (proj2 (N.ltb_ge _ _)) by lia. rewrite (out_range 194), (out_range 224), (in_range 240) by lia.
    destruct (N.eqb_spec a 240); destruct (N.eqb_spec a 244); rewrite !in_range by lia; reflexivity.
Qed.
Lemma characters_utf8 k : forall s, (String.length s <= k)%nat -> characters s -> utf8 s.
Proof.
  induction k as [|k IH]; intros s Hk H. { destruct s; [constructor|cbn in Hk; lia]. }
  destruct (characters_len s H) as [->|(t & r & j & E & L & R & Hr)]; [constructor|]. destruct (runeLen_char s j R) as (n & r' & Hn & E' & L'). rewrite E' in E. destruct (str_app_inj (encodeRune n) t r' r ltac:(lia) E) as [E1 E2]. subst. constructor; [exact Hn|]. apply IH; [|exact Hr].
  enough (String.length (encodeRune n ++ r) = (S j + String.length r)%nat) by lia. rewrite <- L'. clear. induction (encodeRune n) as [|c q IH]; [reflexivity|]. cbn. lia.
Qed.
Lemma characters_iff s : characters s <-> utf8 s. Proof. split; [apply (characters_utf8 _ s (le_n _))|apply utf8_characters]. Qed.

Section Claims.
Context (T : NumText).
Notation jv := (jv T).

Lemma inside_trans (u v w : jv) : inside u v -> inside v w -> inside u w.
Proof. intros H1 H2. induction H2 as [|w l HI H2 IH|k w l HI H2 IH]; [exact H1|exact (inside_list _ _ _ _ HI IH)|exact (inside_map _ _ _ _ _ HI IH)]. Qed.
Definition niceSpec (v : jv) : Prop :=
  (forall l, inside (JMap l) v -> NoDup (map fst l)) /\ (forall s, inside (JText s) v -> characters s) /\ (forall l k, inside (JMap l) v -> In k (map fst l) -> characters k) /\ (forall x, inside (JNum x) v -> jfinite T x = true).
Lemma niceSpec_sub u v : niceSpec v -> inside u v -> niceSpec u.
Proof. intros (H1 & H2 & H3 & H4) HI. repeat split; intros; [eapply H1|eapply H2|eapply H3|eapply H4]; try eapply inside_trans; eassumption. Qed.
Lemma nice_spec v : nice T v <-> niceSpec v.
Proof.
  induction v as [|b|x|s|l IH|l IH] using jv_rect'.
  1-4: (split; [intros HN; inversion HN; subst|intros (H1 & H2 & H3 & H4); constructor]).
  1,2: repeat split; intros; match goal with H : inside _ _ |- _ => inversion H end.
  1: repeat split; intros; match goal with H : inside _ _ |- _ => inversion H; subst; assumption end.
  1: apply H4; constructor.
  1: repeat split; intros; match goal with H : inside _ _ |- _ => inversion H; subst end; apply characters_iff; assumption.
  1: apply characters_iff, H2; constructor.
  - split.
    + intros HN. inversion HN as [| | | |? NL|]; subst. assert (G : forall w, In w l -> niceSpec w) by (intros w Hw; rewrite Forall_forall in IH, NL; apply IH; auto).
      repeat split; intros; match goal with H : inside _ (JList l) |- _ => inversion H as [|w ? Hw HI|]; subst end; destruct (G _ Hw) as (G1 & G2 & G3 & G4); eauto.
    + intros HS. constructor. rewrite Forall_forall in *. intros w Hw. apply IH; [exact Hw|]. apply (niceSpec_sub w _ HS). apply (inside_list _ _ w); [exact Hw|constructor].
  - split.
    + intros HN. inversion HN as [| | | | |? ND UL NL]; subst. assert (G : forall k w, In (k, w) l -> niceSpec w) by (intros k w Hw; rewrite Forall_forall in IH, NL; apply (IH (k, w) Hw); apply (NL (k, w) Hw)).
      repeat split; intros; match goal with H : inside _ (JMap l) |- _ => inversion H as [|w ? Hw HI|k' w ? Hw HI]; subst end; try assumption.
      3: { apply characters_iff. match goal with H : In _ (map fst _) |- _ => apply in_map_iff in H; destruct H as ([k' v'] & <- & Hk) end. rewrite Forall_forall in UL. apply (UL _ Hk). }
      all: destruct (G _ _ Hw) as (G1 & G2 & G3 & G4); eauto.
    + intros HS. assert (HS' := HS). destruct HS' as (H1 & H2 & H3 & H4). constructor.
      * apply H1. constructor.
      * rewrite Forall_forall. intros [k w] Hw. apply characters_iff. apply (H3 l k); [constructor|]. apply (in_map fst _ _ Hw).
      * rewrite Forall_forall in *. intros [k w] Hw. apply (IH _ Hw). apply (niceSpec_sub w _ HS). apply (inside_map _ _ k w); [exact Hw|constructor].
Qed.
Lemma nice_map_spec m : nice T (JMap m) <-> goMap m /\ texts characters m /\ finite m.
Proof. rewrite nice_spec. unfold niceSpec, goMap, texts, finite. tauto. Qed.

Lemma nested_deep k (v : jv) : nested k v -> N.of_nat k <= deep T v.
Proof.
  intros H. induction H as [v|n w l HI H IH|n k w l HI H IH|l|l]; try (cbn [deep]; lia).
  - cbn [deep]. enough (deep T w <= fold_right N.max 0 (map (deep T) l)) by lia. clear - HI. induction l as [|x l IH]; [destruct HI|]. cbn [map fold_right]. destruct HI as [->|HI]; [lia|]. specialize (IH HI). lia.
  - cbn [deep]. enough (deep T w <= fold_right N.max 0 (map (fun e => deep T (snd e)) l)) by lia. clear - HI. induction l as [|x l IH]; [destruct HI|]. cbn [map fold_right]. destruct HI as [->|HI]; [cbn; lia|]. specialize (IH HI). lia.
Qed.
Lemma max_reached (l : list N) : fold_right N.max 0 l = 0 \/ In (fold_right N.max 0 l) l.
Proof. induction l as [|x l IH]; [left; reflexivity|]. cbn [fold_right In]. destruct (N.max_spec x (fold_right N.max 0 l)) as [[_ ->]|[_ ->]]; [|auto]. destruct IH as [->|IH]; auto. Qed.
Lemma deep_nested (v : jv) : nested (N.to_nat (deep T v)) v.
Proof.
  induction v as [|b|x|s|l IH|l IH] using jv_rect'; try constructor.
  - cbn [deep]. replace (N.to_nat _) with (S (N.to_nat (fold_right N.max 0 (map (deep T) l)))) by lia. destruct (max_reached (map (deep T) l)) as [->|HI]; [constructor|]. apply in_map_iff in HI. destruct HI as (w & E & Hw). rewrite <- E. apply (nested_list _ _ w); [exact Hw|]. rewrite Forall_forall in IH. apply IH, Hw.
  - cbn [deep]. replace (N.to_nat _) with (S (N.to_nat (fold_right N.max 0 (map (fun e => deep T (snd e)) l)))) by lia. destruct (max_reached (map (fun e => deep T (snd e)) l)) as [->|HI]; [constructor|]. apply in_map_iff in HI. destruct HI as ([k w] & E & Hw). cbn in E. rewrite <- E. apply (nested_map _ _ k w); [exact Hw|]. rewrite Forall_forall in IH. apply (IH _ Hw).
Qed.
Lemma depth_deep n m : depth n m <-> deep T (JMap m) <= n.
Proof. split; [intros H; pose proof (H _ (deep_nested (JMap m))); lia|]. intros H k Hk. apply nested_deep in Hk. lia. Qed.

(** *** comments *)
Definition slash (c : ascii) : bool := Ascii.eqb c "/".
Lemma Strip_plain a s : every (fun c => negb (slash c)) a -> Strip (a ++ s) = a ++ Strip s.
Proof. induction a as [|c a IH]; [reflexivity|]. intros [H1 H2]. cbn [append]. rewrite Prop_C75.Strip_letter, (IH H2); [reflexivity|]. intros ->. discriminate. Qed.
Lemma every_imp (p q : ascii -> bool) s : (forall c, p c = true -> q c = true) -> every p s -> every q s. Proof. intros H. induction s as [|c s IH]; [auto|]. intros [H1 H2]. split; auto. Qed.
Lemma high_plain s : every (fun c => 128 <=? code c) s -> every (fun c => negb (slash c)) s.
Proof. apply every_imp. intros c Hc. apply N.leb_le in Hc. unfold slash. destruct (Ascii.eqb_spec c "/") as [->|]; [cbn in Hc; lia|reflexivity]. Qed.
Lemma encode_high n : scalar n -> 128 <= n -> every (fun c => 128 <=? code c) (encodeRune n).
Proof.
  intros Hn Hb. unfold scalar in Hn. assert (B : forall k, k mod 64 < 64) by (intros; apply N.mod_lt; lia). unfold encodeRune. destruct (N.ltb_spec n 128); [lia|]. destruct (N.ltb_spec n 2048); [|destruct (N.ltb_spec n 65536)].
  - pose proof (B n). assert (n / 64 < 32) by (apply N.div_lt_upper_bound; lia). pose proof (N.le_0_l (n / 64)). pose proof (N.le_0_l (n mod 64)). cbn [every]. rewrite !code_of by lia. rewrite !(proj2 (N.leb_le _ _)) by lia. auto.
  - pose proof (B n). pose proof (B (n / 64)). assert (n / 4096 < 16) by (apply N.div_lt_upper_bound; lia). pose proof (N.le_0_l (n / 4096)). pose proof (N.le_0_l (n mod 64)). pose proof (N.le_0_l (n / 64 mod 64)). cbn [every]. rewrite !code_of by lia. rewrite !(proj2 (N.leb_le _ _)) by lia. auto.
  - pose proof (B n). pose proof (B (n / 64)). pose proof (B (n / 4096)). assert (n / 262144 < 5) by (apply N.div_lt_upper_bound; lia). pose proof (N.le_0_l (n / 262144)). pose proof (N.le_0_l (n mod 64)). pose proof (N.le_0_l (n / 64 mod 64)). pose proof (N.le_0_l (n / 4096 mod 64)). cbn [every]. rewrite !code_of by lia. rewrite !(proj2 (N.leb_le _ _)) by lia. auto 6.
Qed.
Lemma hexDigit_plain n : n < 16 -> slash (hexDigit n) = false.
Proof. intros H. unfold slash. apply Ascii.eqb_neq. intros E. apply (f_equal code) in E. unfold hexDigit in E. destruct (N.ltb_spec n 10); rewrite code_of in E by lia; change (code "/") with 47 in E; lia. Qed.
Lemma escaped_plain c : every (fun c => negb (slash c)) (escaped c).
Proof.
  unfold escaped. destruct (Ascii.eqb_spec c quote) as [->|]; [repeat split|]. destruct (Ascii.eqb_spec c backslash) as [->|]; [repeat split|]. cbn [orb]. destruct (code c =? 10); [repeat split|]. destruct (code c =? 13); [repeat split|]. destruct (code c =? 9); [repeat split|].
  pose proof (code_lt c). assert (code c / 16 < 16) by (apply N.div_lt_upper_bound; lia). assert (code c mod 16 < 16) by (apply N.mod_lt; lia). cbn [append every]. rewrite !hexDigit_plain by assumption. repeat split.
Qed.
(** the inside of a literal, character by character *)
Lemma escape_char n s : scalar n -> exists x, escape true 0 (encodeRune n ++ s) = x ++ escape true 0 s /\ x <> "" /\
  (every (fun c => negb (slash c)) x \/ n = 47 /\ x = "/") /\ (forall c x', x = String c x' -> c = "*"%char -> n = 42).
Proof.
  intros Hn. destruct (N.ltb_spec n 128) as [Hb|Hb].
  - assert (En : encodeRune n = String (ascii_of_N n) "") by (unfold encodeRune; rewrite (proj2 (N.ltb_lt _ _) Hb); reflexivity). rewrite En. cbn [append escape]. set (c := ascii_of_N n). assert (Cn : code c = n) by (apply code_of; lia). rewrite Cn. rewrite (proj2 (N.ltb_lt _ _) Hb).
    destruct (safe c) eqn:S.
    + exists (String c ""). split; [reflexivity|]. split; [discriminate|]. split; [|intros ? ? [= <- <-] E; rewrite E in Cn; cbn in Cn; lia]. unfold slash. destruct (Ascii.eqb_spec c "/") as [E|E]; [right; rewrite E in Cn; cbn in Cn; rewrite E; split; [lia|reflexivity]|left; split; [|exact I]]. apply Ascii.eqb_neq in E. rewrite E. reflexivity.
    + exists (escaped c). split; [reflexivity|]. assert (BS : exists x', escaped c = String backslash x') by (unfold escaped; repeat match goal with |- context [if ?b then _ else _] => destruct b end; eexists; reflexivity). destruct BS as (x' & EB). split; [rewrite EB; discriminate|]. split; [left; apply escaped_plain|]. rewrite EB. intros ? ? [= <- <-] E. discriminate.
  - pose proof (encode_high n Hn Hb) as HH. pose proof (runeLen_encode n s Hn) as R. destruct (encodeRune n) as [|a t] eqn:En. { destruct (encode_head n Hb) as (a & t & E & _); [unfold scalar in Hn; lia|congruence]. }
    assert (Ha : 128 <= code a) by (destruct HH as [HH _]; apply N.leb_le, HH). cbn [append escape]. destruct (N.ltb_spec (code a) 128); [lia|]. change (String a (t ++ s)) with (String a t ++ s). rewrite R. cbn [String.length].
    destruct (separator (String a t ++ s)) as [d|] eqn:ES.
    + exists ("\u202" ++ String d ""). split; [rewrite app_str; cbn [append]; rewrite escape_drop; reflexivity|]. split; [discriminate|]. split; [|intros ? ? [= <- <-] E; discriminate].
      left. unfold separator in ES. destruct (String a t ++ s) as [|? [|? [|? ?]]]; try discriminate. destruct (_ && _); [|discriminate]. destruct (_ =? 168); [injection ES as <-; repeat split|]. destruct (_ =? 169); [injection ES as <-; repeat split|discriminate].
    + exists (String a t). split; [rewrite escape_keep; reflexivity|]. split; [discriminate|]. split; [left; apply high_plain, HH|]. intros ? ? [= <- <-] E. rewrite E in Ha. cbn in Ha. lia.
Qed.
Lemma calm_cons c s : calmText (String c s) -> calmText s. Proof. intros [H1 H2]. split; intros H; [apply H1|apply H2]; apply Prop_C75.has_cons, H. Qed.
Lemma calm_app t s : calmText (t ++ s) -> calmText s. Proof. induction t as [|c t IH]; [auto|]. intros H. apply IH, (calm_cons c), H. Qed.
Lemma Strip_escape s : utf8 s -> calmText s -> forall r, Strip (escape true 0 s ++ String quote r) = escape true 0 s ++ String quote (Strip r).
Proof.
  induction 1 as [|n s Hn Hs IH]; intros HC r; [cbn [escape append]; apply Prop_C75.Strip_letter; discriminate|]. specialize (IH (calm_app _ _ HC) r). destruct (escape_char n s Hn) as (x & E & NE & SL & ST). rewrite E, !app_str. destruct SL as [SL|[-> ->]]; [rewrite Strip_plain, IH by exact SL; reflexivity|].
  cbn [append] in *. rewrite <- IH. change (encodeRune 47 ++ s) with (String "/" s) in HC. destruct HC as [C1 C2]. inversion Hs as [|m s' Hm Hs' E']; subst; [apply Prop_C75.Strip_slash; discriminate|].
  destruct (escape_char m s' Hm) as (y & Ey & NEy & SLy & STy). rewrite Ey, app_str. destruct y as [|d y]; [congruence|]. cbn [append]. apply Prop_C75.Strip_slash; intros ->.
  - destruct SLy as [[SLy _]|[-> _]]; [discriminate|]. apply C1. apply (Prop_C75.has_here "//" s').
  - rewrite (STy _ _ eq_refl eq_refl) in C2. apply C2. apply (Prop_C75.has_here "/*" s').
Qed.
Lemma Strip_quoted s r : utf8 s -> calmText s -> Strip (quoted s ++ r) = quoted s ++ Strip r.
Proof. intros H1 H2. rewrite !quoted_app, Prop_C75.Strip_letter by discriminate. rewrite Strip_escape by assumption. reflexivity. Qed.
Lemma number_plain a : every numberByte a -> every (fun c => negb (slash c)) a.
Proof. apply every_imp. intros c. unfold slash. destruct (Ascii.eqb_spec c "/") as [->|]; [discriminate|reflexivity]. Qed.
Lemma space_plain a : every space a -> every (fun c => negb (slash c)) a.
Proof. apply every_imp. intros c. unfold slash. destruct (Ascii.eqb_spec c "/") as [->|]; [discriminate|reflexivity]. Qed.
Inductive calmValue : jv -> Prop :=
| calm_null : calmValue JNull | calm_bool b : calmValue (JBool b) | calm_num x : calmValue (JNum x) | calm_text s : calmText s -> calmValue (JText s)
| calm_list l : Forall calmValue l -> calmValue (JList l)
| calm_map l : Forall (fun e => calmText (fst e) /\ calmValue (snd e)) l -> calmValue (JMap l).
Lemma Strip_write (Laws : NumTextLaws T) ind v : nice T v -> calmValue v -> forall d r, Strip (write T ind d v ++ r) = write T ind d v ++ Strip r.
Proof.
  induction v as [|b|x|s|l IH|l IH] using jv_rect'; intros HN HC d r.
  - cbn [write]. apply Strip_plain. repeat split.
  - cbn [write]. apply Strip_plain. destruct b; repeat split.
  - cbn [write]. apply Strip_plain. inversion HN as [| |? Fx| | |]; subst. apply number_plain. apply (number_every _ (proj1 (law_show T Laws x Fx))).
  - cbn [write]. inversion HN as [| | |? U| |]; subst. inversion HC; subst. apply Strip_quoted; assumption.
  - inversion HN as [| | | |? NL|]; subst. inversion HC as [| | | |? CL|]; subst. destruct l as [|w l]; [apply Strip_plain; repeat split|]. rewrite write_list. inversion NL as [|? ? NW NL']; subst. inversion CL as [|? ? CW CL']; subst. inversion IH as [|? ? IW IL]; subst.
    cbn [append]. rewrite Prop_C75.Strip_letter by discriminate. rewrite !app_str. f_equal. rewrite Strip_plain by apply space_plain, line_space. f_equal. rewrite (IW NW CW). f_equal.
    clear - NL' CL' IL. revert NL' CL'. induction IL as [|x l IX IL IHl]; intros NL CL.
    + cbn [moreItems]. rewrite !app_str, Strip_plain by apply space_plain, line_space. f_equal. cbn [append]. apply Prop_C75.Strip_letter. discriminate.
    + inversion NL as [|? ? NX NL']; subst. inversion CL as [|? ? CX CL']; subst. cbn [moreItems append]. rewrite Prop_C75.Strip_letter by discriminate. rewrite !app_str. f_equal. rewrite Strip_plain by apply space_plain, line_space. f_equal. rewrite (IX NX CX). f_equal. apply IHl; assumption.
  - inversion HN as [| | | | |? ND UL NL]; subst. inversion HC as [| | | | |? CL]; subst. destruct l as [|[k w] l]; [apply Strip_plain; repeat split|]. rewrite write_map. inversion NL as [|? ? NW NL']; subst. inversion CL as [|? ? CW CL']; subst. inversion IH as [|? ? IW IL]; subst. inversion UL as [|? ? UK UL']; subst. cbn [fst snd] in *.
    assert (PC : every (fun c => negb (slash c)) (colon ind)) by (destruct ind; repeat split).
    cbn [append]. rewrite Prop_C75.Strip_letter by discriminate. rewrite !app_str. f_equal. rewrite Strip_plain by apply space_plain, line_space. f_equal. rewrite Strip_quoted by tauto. f_equal. rewrite Strip_plain by exact PC. f_equal. rewrite (IW NW (proj2 CW)). f_equal.
    clear - NL' CL' IL UL' PC. revert NL' CL' UL'. induction IL as [|[k w] l IX IL IHl]; intros NL CL UL.
    + cbn [moreEntries]. rewrite !app_str, Strip_plain by apply space_plain, line_space. f_equal. cbn [append]. apply Prop_C75.Strip_letter. discriminate.
    + inversion NL as [|? ? NX NL']; subst. inversion CL as [|? ? CX CL']; subst. inversion UL as [|? ? UX UL']; subst. cbn [fst snd] in *. cbn [moreEntries append fst snd]. rewrite Prop_C75.Strip_letter by discriminate. rewrite !app_str. f_equal. rewrite Strip_plain by apply space_plain, line_space. f_equal.
      rewrite Strip_quoted by tauto. f_equal. rewrite Strip_plain by exact PC. f_equal. rewrite (IX NX (proj2 CX)). f_equal. apply IHl; assumption.
Qed.
Lemma calm_spec v : (forall s, inside (JText s) v -> calmText s) -> (forall l k, inside (JMap l) v -> In k (map fst l) -> calmText k) -> calmValue v.
Proof.
  induction v as [|b|x|s|l IH|l IH] using jv_rect'; intros H1 H2; try constructor.
  - apply H1. constructor.
  - rewrite Forall_forall in *. intros w Hw. apply (IH w Hw); intros; [apply H1|eapply H2; [|eassumption]]; apply (inside_list _ _ w); assumption.
  - rewrite Forall_forall in *. intros [k w] Hw. split; [apply (H2 l k); [constructor|apply (in_map fst _ _ Hw)]|]. apply (IH _ Hw); intros; [apply H1|eapply H2; [|eassumption]]; apply (inside_map _ _ k w); assumption.
Qed.
Lemma calm_same v : forall w, calmValue v -> same T v w -> calmValue w.
Proof.
  induction v as [|b|x|s|l IH|l IH] using jv_rect'; intros w HN HS; inversion HS as [| | | |? m HF|? k m HF HP]; subst; try exact HN.
  - inversion HN as [| | | |? NL|]; subst. constructor. clear HN HS. revert IH NL. induction HF as [|a b l m H HF IHF]; intros IH NL; [constructor|]. inversion IH; subst. inversion NL; subst. constructor; auto.
  - inversion HN as [| | | | |? NL]; subst. clear HN HS. constructor. apply (Permutation_Forall HP). clear - IH NL HF. induction HF as [|a b l k [H1 H2] HF IHF]; [constructor|]. inversion IH as [|? ? IA IL]; subst. inversion NL as [|? ? [NA1 NA2] NL']; subst. constructor; [split; [rewrite <- H1; exact NA1|apply (IA _ NA2 H2)]|apply (IHF IL NL')].
Qed.

Lemma noPanic f :
  (forall room s, value T f room s <> Panic) /\ (forall room s acc, entries T f room s acc <> Panic) /\ (forall room s acc, elements T f room s acc <> Panic).
Proof.
  induction f as [|f (IHv & IHe & IHl)]; [repeat split; intros; discriminate|]. split; [|split].
  - intros room s. rewrite value_S. destruct (skip s) as [|c r]; [discriminate|]. destruct (Ascii.eqb c "{"); [destruct (room =? 0); [discriminate|]; destruct (skip r) as [|d r2]; [discriminate|]; destruct (Ascii.eqb d "}"); [discriminate|apply IHe]|].
    destruct (Ascii.eqb c "["); [destruct (room =? 0); [discriminate|]; destruct (skip r) as [|d r2]; [discriminate|]; destruct (Ascii.eqb d "]"); [discriminate|apply IHl]|]. destruct (Ascii.eqb c quote); [destruct (literal 0 r) as [[]|]; discriminate|].
    destruct (Ascii.eqb c "n"); [destruct (after _ r); discriminate|]. destruct (Ascii.eqb c "t"); [destruct (after _ r); discriminate|]. destruct (Ascii.eqb c "f"); [destruct (after _ r); discriminate|]. destruct (span _) as [a b]. destruct (isNumber a); [|discriminate]. destruct (jread T a); discriminate.
  - intros room s acc. rewrite entries_S. destruct s as [|c s]; [discriminate|]. destruct (Ascii.eqb c quote); [|discriminate]. destruct (literal 0 s) as [[k r1]|]; [|discriminate]. destruct (skip r1) as [|c2 r2]; [discriminate|]. destruct (Ascii.eqb c2 ":"); [|discriminate].
    pose proof (IHv (room - 1) r2) as H. destruct (value T f (room - 1) r2) as [[w r3]| | |]; cbn [bind]; try congruence. destruct (skip r3) as [|c4 r4]; [discriminate|]. destruct (Ascii.eqb c4 ","); [apply IHe|]. destruct (Ascii.eqb c4 "}"); discriminate.
  - intros room s acc. rewrite elements_S. pose proof (IHv (room - 1) s) as H. destruct (value T f (room - 1) s) as [[w r3]| | |]; cbn [bind]; try congruence. destruct (skip r3) as [|c4 r4]; [discriminate|]. destruct (Ascii.eqb c4 ","); [apply IHl|]. destruct (Ascii.eqb c4 "]"); discriminate.
Qed.
Lemma unmarshal_nice (Laws : NumTextLaws T) s m : UnmarshalJSON T s = Ok (Some m) -> nice T (JMap m) /\ deep T (JMap m) <= 10000.
Proof.
  unfold UnmarshalJSON. destruct (value T _ 10000 s) as [[v r]| | |] eqn:E; try discriminate. cbn [bind]. apply (proj1 (reads_nice T Laws _)) in E. destruct (skip r); [|discriminate]. destruct v; try discriminate. intros [= <-]. exact E.
Qed.
Lemma unmarshal_written (Laws : NumTextLaws T) ind m : nice T (JMap m) -> deep T (JMap m) <= 10000 -> exists m', UnmarshalJSON T (write T ind 0 (ordered T (JMap m))) = Ok (Some m') /\ same T (JMap m) (JMap m').
Proof.
  intros HN HD. pose proof (same_ordered T (JMap m)) as HS. cbn [ordered] in *. exists (sortKeys (map (fun e => (fst e, ordered T (snd e))) m)). split; [|exact HS]. unfold UnmarshalJSON.
  rewrite (unmarshal_write T Laws ind); [reflexivity|apply (same_nice T _ _ HN HS)|rewrite <- (same_deep T _ _ HS); exact HD].
Qed.

(** *** the claims *)
(** A map is written, and what is written is read back as the same map: whatever numbers that are finite, texts of characters and keys there are, no key twice. *)
Theorem C96_marshal (Laws : NumTextLaws T) m : goMap m -> texts characters m -> finite m -> depth 10000 m ->
  exists t m', MarshalJSON T m = Ok t /\ UnmarshalJSON T t = Ok (Some m') /\ same T (JMap m) (JMap m').
Proof.
  intros H1 H2 H3 H4. assert (HN : nice T (JMap m)) by (apply nice_map_spec; auto). apply depth_deep in H4. destruct (unmarshal_written Laws false m HN H4) as (m' & E & S). exists (write T false 0 (ordered T (JMap m))), m'. split; [|split; assumption].
  unfold MarshalJSON. rewrite (nice_writable T _ HN). reflexivity.
Qed.
(** So it is with ToJSON and ParseJSON, if no text and no key contains the start of a comment. *)
Theorem C96_round (Laws : NumTextLaws T) m : goMap m -> texts characters m -> finite m -> depth 10000 m -> texts calmText m ->
  exists m', ParseJSON T (ToJSON T m) = Ok (Some m') /\ same T (JMap m) (JMap m').
Proof.
  intros H1 H2 H3 H4 H5. assert (HN : nice T (JMap m)) by (apply nice_map_spec; auto). apply depth_deep in H4. destruct (unmarshal_written Laws true m HN H4) as (m' & E & S). exists m'. split; [|exact S].
  assert (HC : calmValue (JMap m)) by (apply calm_spec; apply H5). unfold ParseJSON, ToJSON. rewrite (nice_writable T _ HN). pose proof (same_ordered T (JMap m)) as HS. pose proof (Strip_write Laws true (ordered T (JMap m)) (same_nice T _ _ HN HS) (calm_same _ _ HC HS) 0%nat "") as K. rewrite app_nil_str in K. rewrite K. change (Strip "") with "". rewrite app_nil_str. exact E.
Qed.
(** Whatever is read has one value for each key, texts of characters and finite numbers and is not nested too deep; so it can be written and is read back as the same map. *)
Theorem C96_stable (Laws : NumTextLaws T) s m : ParseJSON T s = Ok (Some m) ->
  goMap m /\ texts characters m /\ finite m /\ depth 10000 m /\ exists t m', MarshalJSON T m = Ok t /\ UnmarshalJSON T t = Ok (Some m') /\ same T (JMap m) (JMap m').
Proof.
  intros H. apply (unmarshal_nice Laws) in H. destruct H as [HN HD]. apply nice_map_spec in HN. destruct HN as (H1 & H2 & H3). apply depth_deep in HD. do 4 (split; [assumption|]). apply C96_marshal; assumption.
Qed.
(** The text does not depend on the order in which the entries of the maps are visited. *)
Theorem C96_order m m' : goMap m -> texts characters m -> finite m -> same T (JMap m) (JMap m') -> ToJSON T m' = ToJSON T m /\ MarshalJSON T m' = MarshalJSON T m.
Proof.
  intros H1 H2 H3 S. assert (HN : nice T (JMap m)) by (apply nice_map_spec; auto). unfold ToJSON, MarshalJSON. rewrite (nice_writable T _ HN), (nice_writable T _ (same_nice T _ _ HN S)), (ordered_same T _ _ HN S). split; reflexivity.
Qed.
(** Every text is read or refused. *)
Theorem C96_ends s : ParseJSON T s = Err \/ exists o, ParseJSON T s = Ok o.
Proof.
  unfold ParseJSON, UnmarshalJSON. generalize (Strip s) as t. intros t. pose proof (proj1 (steps T (S (2 * String.length t))) 10000 t ltac:(lia)) as K. pose proof (proj1 (noPanic (S (2 * String.length t))) 10000 t) as P. destruct (value T _ 10000 t) as [[v r]| | |]; try congruence; try contradiction; [|left; reflexivity].
  cbn [bind]. destruct (skip r); [|left; reflexivity]. destruct v; eauto.
Qed.
(** A map with a number that is not finite in it is not written: MarshalJSON ends with an error, ToJSON gives the empty text; and only those. *)
Lemma writable_spec v : writable T v = true <-> forall x, inside (JNum x) v -> jfinite T x = true.
Proof.
  induction v as [|b|x|s|l IH|l IH] using jv_rect'; cbn [writable].
  - split; [intros _ x H; inversion H|reflexivity].
  - split; [intros _ x H; inversion H|reflexivity].
  - split; [intros E y H; inversion H; subst; exact E|]. intros H. apply H. constructor.
  - split; [intros _ x H; inversion H|reflexivity].
  - rewrite forallb_forall. rewrite Forall_forall in IH. split; [intros H x HI; inversion HI as [|w ? Hw HI'|]; subst; apply (proj1 (IH w Hw)); auto|]. intros H w Hw. apply (IH w Hw). intros x Hx. apply H, (inside_list _ _ w); assumption.
  - rewrite forallb_forall. rewrite Forall_forall in IH. split; [intros H x HI; inversion HI as [| |k w ? Hw HI']; subst; apply (proj1 (IH (k, w) Hw)); auto; apply (H (k, w) Hw)|]. intros H [k w] Hw. apply (IH (k, w) Hw). intros x Hx. apply H, (inside_map _ _ k w); assumption.
Qed.
Theorem C96_refuse m : (finite m -> exists t, MarshalJSON T m = Ok t /\ ToJSON T m <> "") /\ (~ finite m -> MarshalJSON T m = Err /\ ToJSON T m = "").
Proof.
  unfold MarshalJSON, ToJSON, finite. pose proof (writable_spec (JMap m)) as W. destruct (writable T (JMap m)); split; intros H.
  - eexists. split; [reflexivity|]. cbn [ordered]. destruct (sortKeys _); [|rewrite write_map]; discriminate.
  - exfalso. apply H, W. reflexivity.
  - apply W in H. discriminate.
  - split; reflexivity.
Qed.
Lemma literal_plain s : utf8 s -> (forall c, In c (list_ascii_of_string s) -> c <> quote /\ c <> backslash /\ 32 <= code c) -> forall r, literal 0 (s ++ String quote r) = Some (s, r).
Proof.
  induction 1 as [|n s Hn Hs IH]; intros HP r; [reflexivity|]. assert (HP' : forall c, In c (list_ascii_of_string s) -> c <> quote /\ c <> backslash /\ 32 <= code c). { intros c Hc. apply HP. clear - Hc. induction (encodeRune n) as [|x t IH]; [exact Hc|right; exact IH]. }
  rewrite app_str. destruct (N.ltb_spec n 128) as [Hb|Hb].
  - assert (En : encodeRune n = String (ascii_of_N n) "") by (unfold encodeRune; rewrite (proj2 (N.ltb_lt _ _) Hb); reflexivity). rewrite En in *. cbn [append] in *. destruct (HP (ascii_of_N n) (or_introl eq_refl)) as (P1 & P2 & P3). apply Ascii.eqb_neq in P1, P2. cbn [literal]. rewrite P1, P2. rewrite code_of in * by lia.
    rewrite (proj2 (N.ltb_ge _ _)) by lia. rewrite (proj2 (N.ltb_lt _ _)) by lia. rewrite (IH HP' r). reflexivity.
  - rewrite (literal_char n _ Hn Hb), (IH HP' r). reflexivity.
Qed.
(** The last of two entries with the same key counts. *)
Theorem C96_last (Laws : NumTextLaws T) k v w tv tw : characters k -> (forall c, In c (list_ascii_of_string k) -> c <> """"%char /\ c <> "\"%char /\ 32 <= code c) ->
  goMap v -> texts characters v -> finite v -> depth 9999 v -> goMap w -> texts characters w -> finite w -> depth 9999 w -> MarshalJSON T v = Ok tv -> MarshalJSON T w = Ok tw ->
  exists w', UnmarshalJSON T ("{""" ++ k ++ """:" ++ tv ++ ",""" ++ k ++ """:" ++ tw ++ "}") = Ok (Some [(k, JMap w')]) /\ same T (JMap w) (JMap w').
Proof.
  intros Hk HP V1 V2 V3 Dv W1 W2 W3 Dw. apply characters_iff in Hk. assert (Nv : nice T (JMap v)) by (apply nice_map_spec; auto). assert (Nw : nice T (JMap w)) by (apply nice_map_spec; auto). apply depth_deep in Dv, Dw.
  unfold MarshalJSON. rewrite (nice_writable T _ Nv), (nice_writable T _ Nw). intros [= <-] [= <-]. pose proof (same_ordered T (JMap v)) as Sv. pose proof (same_ordered T (JMap w)) as Sw. apply (same_nice T _ _ Nv) in Sv as Nv'. apply (same_nice T _ _ Nw) in Sw as Nw'. rewrite (same_deep T _ _ Sv) in Dv. rewrite (same_deep T _ _ Sw) in Dw.
  cbn [ordered] in *. set (v' := sortKeys (map (fun e => (fst e, ordered T (snd e))) v)) in *. set (w' := sortKeys (map (fun e => (fst e, ordered T (snd e))) w)) in *. exists w'. split; [|exact Sw]. set (s := "{""" ++ _).
  destruct (write_back T Laws false (JMap v') Nv' 0%nat 9999 (",""" ++ k ++ """:" ++ write T false 0 (JMap w') ++ "}") Dv (or_introl eq_refl)) as (f1 & F1). destruct (write_back T Laws false (JMap w') Nw' 0%nat 9999 "}" Dw (or_intror (or_intror (or_introl eq_refl)))) as (f2 & F2).
  assert (E : forall f, (f1 <= f)%nat -> (f2 <= f)%nat -> value T (S (S (S f))) 10000 s = Ok (JMap [(k, JMap w')], "")).
  { intros f HF1 HF2. rewrite value_S. unfold s. cbn [append]. rewrite skip_not by reflexivity. cbn [Ascii.eqb Bool.eqb]. change (10000 =? 0) with false. cbv iota. rewrite skip_not by reflexivity. cbn [Ascii.eqb Bool.eqb]. rewrite entries_S. change (Ascii.eqb """" quote) with true. cbv iota. change (String """" ?x) with (String quote x). rewrite (literal_plain k Hk HP). rewrite skip_not by reflexivity. rewrite Ascii.eqb_refl.
    change (10000 - 1) with 9999. cbn [append] in F1. change (String """" ?x) with (String quote x) in F1. rewrite F1 by lia. cbn [bind]. rewrite skip_not by reflexivity. rewrite Ascii.eqb_refl. rewrite skip_not by reflexivity. rewrite entries_S. rewrite Ascii.eqb_refl, (literal_plain k Hk HP). rewrite skip_not by reflexivity. rewrite Ascii.eqb_refl.
    change (10000 - 1) with 9999. rewrite F2 by lia. cbn [bind]. rewrite skip_not by reflexivity. cbn [Ascii.eqb Bool.eqb set]. rewrite String.eqb_refl. reflexivity. }
  unfold UnmarshalJSON. rewrite <- (value_fuel T s 10000 (S (S (S (Nat.max (2 * String.length s) (Nat.max f1 f2)))))); [|lia]. rewrite E by lia. reflexivity.
Qed.
(** What is between the quotes is the text, as long as it has no quote, no backslash and no control byte. *)
Theorem C96_text s : characters s -> (forall c, In c (list_ascii_of_string s) -> c <> """"%char /\ c <> "\"%char /\ 32 <= code c) ->
  UnmarshalJSON T ("{""k"":""" ++ s ++ """}") = Ok (Some [("k", JText s)]).
Proof.
  intros H HP. apply characters_iff in H. unfold UnmarshalJSON. set (t := "{""k"":""" ++ s ++ """}").
  assert (E : forall f, value T (S (S (S (S f)))) 10000 t = Ok (JMap [("k", JText s)], "")).
  { intros f. rewrite value_S. unfold t. cbn [append]. rewrite skip_not by reflexivity. cbn [Ascii.eqb Bool.eqb]. change (10000 =? 0) with false. cbv iota. rewrite skip_not by reflexivity. cbn [Ascii.eqb Bool.eqb]. rewrite entries_S. change (Ascii.eqb """" quote) with true. cbv iota.
    replace (literal 0 (String "k" (String """" (String ":" (String """" (s ++ String """" "}")))))) with (Some ("k", String ":" (String """" (s ++ String """" "}")))) by reflexivity. rewrite skip_not by reflexivity. cbn [Ascii.eqb Bool.eqb]. rewrite value_S, skip_not by reflexivity. cbn [Ascii.eqb Bool.eqb quote].
    change (String """" "}") with (String quote "}"). rewrite (literal_plain s H HP). reflexivity. }
  rewrite <- (value_fuel T t 10000 (S (S (S (S (2 * String.length t)))))); [|lia]. rewrite E. reflexivity.
Qed.

(** The number that four hexadecimal digits give after a backslash and u is the number of the character that is read; of two such numbers that are the halves of a pair, the one character. *)
Lemma hexOf_value c n : hexOf c n -> hexValue c = Some n /\ n < 16.
Proof.
  unfold hexOf. intros H. assert (n = N.of_nat (N.to_nat n)) by lia. destruct (N.to_nat n) as [|[|[|[|[|[|[|[|[|[|[|[|[|[|[|[|k]]]]]]]]]]]]]]]];
    try (destruct H as [H|H]; injection H as <-; subst n; split; reflexivity). destruct H as [H|H]; cbn [get] in H; discriminate.
Qed.
Lemma point_encode n : scalar n -> point (encodeRune n) = Some n.
Proof.
  intros Hn. unfold scalar in Hn. assert (B : forall k, k mod 64 < 64) by (intros; apply N.mod_lt; lia). assert (Q : forall k, k = 64 * (k / 64) + k mod 64) by (intros; apply N.div_mod'). unfold encodeRune. destruct (N.ltb_spec n 128); [cbn [point]; rewrite code_of by lia; reflexivity|]. destruct (N.ltb_spec n 2048); [|destruct (N.ltb_spec n 65536)].
  - pose proof (B n). pose proof (Q n). assert (n / 64 < 32) by (apply N.div_lt_upper_bound; lia). pose proof (N.le_0_l (n / 64)). pose proof (N.le_0_l (n mod 64)). cbn [point]. rewrite !code_of by lia. f_equal. lia.
  - pose proof (B n). pose proof (B (n / 64)). pose proof (Q n). pose proof (Q (n / 64)) as Q2. rewrite N.div_div in Q2 by lia. change (64 * 64) with 4096 in Q2. assert (n / 4096 < 16) by (apply N.div_lt_upper_bound; lia). pose proof (N.le_0_l (n / 4096)). pose proof (N.le_0_l (n mod 64)). pose proof (N.le_0_l (n / 64 mod 64)). cbn [point]. rewrite !code_of by lia. f_equal. lia.
  - pose proof (B n). pose proof (B (n / 64)). pose proof (B (n / 4096)). pose proof (Q n). pose proof (Q (n / 64)) as Q2. pose proof (Q (n / 4096)) as Q3. rewrite N.div_div in Q2, Q3 by lia. change (64 * 64) with 4096 in *. change (4096 * 64) with 262144 in *. assert (n / 262144 < 5) by (apply N.div_lt_upper_bound; lia). pose proof (N.le_0_l (n / 262144)). pose proof (N.le_0_l (n mod 64)). pose proof (N.le_0_l (n / 64 mod 64)). pose proof (N.le_0_l (n / 4096 mod 64)). cbn [point]. rewrite !code_of by lia. f_equal. lia.
Qed.
Lemma unmarshal_literal t s : literal 0 (t ++ String quote "}") = Some (s, "}") -> UnmarshalJSON T ("{""k"":""" ++ t ++ """}") = Ok (Some [("k", JText s)]).
Proof.
  intros H. unfold UnmarshalJSON. set (u := "{""k"":""" ++ t ++ """}").
  assert (E : forall f, value T (S (S (S (S f)))) 10000 u = Ok (JMap [("k", JText s)], "")).
  { intros f. rewrite value_S. unfold u. cbn [append]. rewrite skip_not by reflexivity. cbn [Ascii.eqb Bool.eqb]. change (10000 =? 0) with false. cbv iota. rewrite skip_not by reflexivity. cbn [Ascii.eqb Bool.eqb]. rewrite entries_S. change (Ascii.eqb """" quote) with true. cbv iota.
    replace (literal 0 (String "k" (String """" (String ":" (String """" (t ++ String """" "}")))))) with (Some ("k", String ":" (String """" (t ++ String """" "}")))) by reflexivity. rewrite skip_not by reflexivity. cbn [Ascii.eqb Bool.eqb]. rewrite value_S, skip_not by reflexivity. cbn [Ascii.eqb Bool.eqb quote].
    change (String """" "}") with (String quote "}"). rewrite H. reflexivity. }
  rewrite <- (value_fuel T u 10000 (S (S (S (S (2 * String.length u)))))); [|lia]. rewrite E. reflexivity.
Qed.
Lemma literal_u r : literal 0 (String "\" (String "u" r)) =
                  match r with
                  | String a (String b (String c (String d r))) =>
                      match hex4 a b c d with
                      | None => None
                      | Some n =>
                          if half1 n || half2 n then
                            match r with
                            | String x (String y (String a (String b (String c (String d r2))))) =>
                                if Ascii.eqb x backslash && Ascii.eqb y "u" then
                                  match hex4 a b c d with
                                  | Some m => if half1 n && half2 m then prefix (encodeRune (65536 + (n - 55296) * 1024 + (m - 56320))) (literal 0 r2) else prefix replacement (literal 0 r)
                                  | None => prefix replacement (literal 0 r)
                                  end
                                else prefix replacement (literal 0 r)
                            | _ => prefix replacement (literal 0 r)
                            end
                          else prefix (encodeRune n) (literal 0 r)
                      end
                  | _ => None
                  end.
Proof. reflexivity. Qed.
Theorem C96_unicode a b c d na nb nc nd : hexOf a na -> hexOf b nb -> hexOf c nc -> hexOf d nd -> let n := 4096 * na + 256 * nb + 16 * nc + nd in n < 55296 \/ 57344 <= n ->
  exists s, UnmarshalJSON T ("{""k"":""" ++ hexText a b c d ++ """}") = Ok (Some [("k", JText s)]) /\ characters s /\ point s = Some n.
Proof.
  intros Ha Hb Hc Hd n Hn. apply hexOf_value in Ha, Hb, Hc, Hd. destruct Ha as [Ha La], Hb as [Hb Lb], Hc as [Hc Lc], Hd as [Hd Ld]. assert (SC : scalar n) by (unfold scalar, n in *; lia). exists (encodeRune n). split; [|split; [|apply point_encode, SC]].
  - apply unmarshal_literal. unfold hexText. cbn [append]. rewrite literal_u. cbv iota. unfold hex4. rewrite Ha, Hb, Hc, Hd. cbv iota. fold n.
    assert (half1 n = false) as -> by (unfold half1; destruct (N.leb_spec 55296 n); [|reflexivity]; destruct (N.ltb_spec n 56320); [lia|reflexivity]). assert (half2 n = false) as -> by (unfold half2; destruct (N.leb_spec 56320 n); [|reflexivity]; destruct (N.ltb_spec n 57344); [lia|reflexivity]). cbn [orb]. change (literal 0 (String quote "}")) with (Some ("", "}")). cbn [prefix]. rewrite app_nil_str. reflexivity.
  - rewrite <- (app_nil_str (encodeRune n)). apply utf8_characters. constructor; [exact SC|constructor].
Qed.
Theorem C96_pair a b c d e f g h na nb nc nd ne nf ng nh : hexOf a na -> hexOf b nb -> hexOf c nc -> hexOf d nd -> hexOf e ne -> hexOf f nf -> hexOf g ng -> hexOf h nh ->
  let n := 4096 * na + 256 * nb + 16 * nc + nd in let m := 4096 * ne + 256 * nf + 16 * ng + nh in 55296 <= n < 56320 -> 56320 <= m < 57344 ->
  exists s, UnmarshalJSON T ("{""k"":""" ++ (hexText a b c d ++ hexText e f g h) ++ """}") = Ok (Some [("k", JText s)]) /\ characters s /\ point s = Some (65536 + 1024 * (n - 55296) + (m - 56320)).
Proof.
  intros Ha Hb Hc Hd He Hf Hg Hh n m Hn Hm. apply hexOf_value in Ha, Hb, Hc, Hd, He, Hf, Hg, Hh. destruct Ha as [Ha La], Hb as [Hb Lb], Hc as [Hc Lc], Hd as [Hd Ld], He as [He Le], Hf as [Hf Lf], Hg as [Hg Lg], Hh as [Hh Lh].
  set (q := 65536 + (n - 55296) * 1024 + (m - 56320)). assert (SC : scalar q) by (unfold scalar, q in *; lia). exists (encodeRune q). split; [|split; [|rewrite point_encode by exact SC; f_equal; unfold q; lia]].
  - apply unmarshal_literal. unfold hexText. cbn [append]. rewrite literal_u. change (Ascii.eqb "\" backslash) with true. change (Ascii.eqb "u" "u") with true. cbv iota. cbn [andb]. unfold hex4. rewrite Ha, Hb, Hc, Hd, He, Hf, Hg, Hh. cbv iota. fold n m.
    assert (half1 n = true) as -> by (unfold half1; rewrite (proj2 (N.leb_le _ _)), (proj2 (N.ltb_lt _ _)) by lia; reflexivity). assert (half2 m = true) as -> by (unfold half2; rewrite (proj2 (N.leb_le _ _)), (proj2 (N.ltb_lt _ _)) by lia; reflexivity). cbn [orb andb]. fold q. change (literal 0 (String quote "}")) with (Some ("", "}")). cbn [prefix]. rewrite app_nil_str. reflexivity.
  - rewrite <- (app_nil_str (encodeRune q)). apply utf8_characters. constructor; [exact SC|constructor].
Qed.
End Claims.

(** *** numbers as they are written, and a value that is no number *)
Definition litNum : Type := option {s : string | isNumber s = true}.
Definition Lit : NumText := mkNumText litNum (fun x => match x with Some _ => true | None => false end) (fun x => match x with Some l => proj1_sig l | None => "NaN" end)
  (fun s => match bool_dec (isNumber s) true with left H => Some (Some (exist _ s H)) | right _ => None end).
Lemma Lit_laws : NumTextLaws Lit.
Proof.
  split.
  - intros [[s H]|]; [|discriminate]. intros _. split; [exact H|]. cbn. destruct (bool_dec (isNumber s) true) as [H'|N]; [|contradiction]. rewrite (UIP_dec bool_dec H H'). reflexivity.
  - intros s x. cbn. destruct (bool_dec (isNumber s) true); [|discriminate]. intros [= <-]. reflexivity.
Qed.
Definition lit (s : string) (H : isNumber s = true) : Lit := Some (exist _ s H).
Notation num s := (JNum (A := Lit) (lit s eq_refl)).
(** *** how the examples meet the hypotheses *)
Fixpoint calmb (s : string) : bool :=
  match s with "" => true | String c r => negb (Ascii.eqb c "/" && match r with String d _ => Ascii.eqb d "/" || Ascii.eqb d "*" | "" => false end) && calmb r end.
Lemma calmb_calm s : calmb s = true -> calmText s.
Proof.
  intros H. assert (G : forall l d r, (d = "/"%char \/ d = "*"%char) -> calmb (l ++ String "/" (String d r)) = true -> False).
  { intros l d r Hd. induction l as [|c l IH]; cbn [append calmb]; intros E; apply andb_true_iff in E; destruct E as [E1 E2]; [|exact (IH E2)]. destruct Hd as [-> | ->]; discriminate. }
  split; intros (l & r & ->); [exact (G l "/"%char r (or_introl eq_refl) H)|exact (G l "*"%char r (or_intror eq_refl) H)].
Qed.
Fixpoint check {T : NumText} (p : string -> bool) (v : jv T) : bool :=
  match v with JText s => p s | JList l => forallb (check p) l | JMap l => forallb (fun e => p (fst e) && check p (snd e)) l | _ => true end.
Lemma check_inside {T : NumText} p (v w : jv T) : inside v w -> check p w = true -> check p v = true.
Proof. induction 1 as [|w l HI H IH|k w l HI H IH]; [auto| |]; cbn [check]; rewrite forallb_forall; intros E; apply IH; [apply E, HI|]. apply E in HI. apply andb_true_iff in HI. apply HI. Qed.
Lemma check_texts {T : NumText} p (P : string -> Prop) (m : list (string * jv T)) : (forall s, p s = true -> P s) -> check p (JMap m) = true -> texts P m.
Proof.
  intros HP H. split; [intros s Hs; apply HP; apply (check_inside p _ _ Hs H)|]. intros l k Hl Hk. apply HP. apply (check_inside p _ _ Hl) in H. cbn [check] in H. rewrite forallb_forall in H. apply in_map_iff in Hk. destruct Hk as (e & <- & He). apply H in He. apply andb_true_iff in He. apply He.
Qed.
Fixpoint once (l : list string) : bool := match l with [] => true | k :: r => negb (existsb (String.eqb k) r) && once r end.
Lemma once_NoDup l : once l = true -> NoDup l.
Proof. induction l as [|k l IH]; [constructor|]. cbn [once]. intros H. apply andb_true_iff in H. destruct H as [H1 H2]. constructor; [|auto]. intros HI. apply negb_true_iff in H1. apply Bool.not_true_iff_false in H1. apply H1, existsb_exists. exists k. split; [exact HI|apply String.eqb_refl]. Qed.
Fixpoint checkKeys {T : NumText} (v : jv T) : bool :=
  match v with JList l => forallb checkKeys l | JMap l => once (map fst l) && forallb (fun e => checkKeys (snd e)) l | _ => true end.
Lemma check_goMap {T : NumText} (m : list (string * jv T)) : checkKeys (JMap m) = true -> goMap m.
Proof.
  intros H l Hl. assert (G : forall v w : jv T, inside v w -> checkKeys w = true -> checkKeys v = true).
  { clear. induction 1 as [|w l HI H IH|k w l HI H IH]; [auto| |]; cbn [checkKeys]; intros E; apply IH; [rewrite forallb_forall in E; apply E, HI|]. apply andb_true_iff in E. destruct E as [_ E]. rewrite forallb_forall in E. apply (E _ HI). }
  apply (G _ _ Hl) in H. cbn [checkKeys] in H. apply andb_true_iff in H. apply once_NoDup, H.
Qed.
Lemma check_finite {T : NumText} (m : list (string * jv T)) : writable T (JMap m) = true -> finite m. Proof. intros H x. apply writable_spec, H. Qed.
Lemma check_depth {T : NumText} n (m : list (string * jv T)) : (deep T (JMap m) <=? n) = true -> depth n m. Proof. intros H. apply depth_deep. apply N.leb_le, H. Qed.

Fixpoint asciib (s : string) : bool := match s with "" => true | String c r => (code c <? 128) && asciib r end.
Lemma asciib_chars s : asciib s = true -> characters s.
Proof. induction s as [|c s IH]; cbn [asciib]; [constructor|]. intros H. apply andb_true_iff in H. destruct H as [H1 H2]. rewrite byte_code. constructor; [apply N.ltb_lt, H1|apply IH, H2]. Qed.
Ltac good := split; [apply check_goMap; reflexivity|split; [apply (check_texts _ _ _ asciib_chars); reflexivity|apply check_finite; reflexivity]].

Definition eAcute : string := String "195" (String "169" "").
Definition sample : list (string * jv Lit) := [("w", num "-1.5e3"); ("a", JList [JText (eAcute ++ "/ ""x"" <b>"); JNull; JMap []]); ("b", JMap [("y", JBool true); ("x", num "0")])].
Lemma sample_chars s : existsb (String.eqb s) ["w"; "a"; "b"; "y"; "x"; eAcute ++ "/ ""x"" <b>"] = true -> characters s.
Proof.
  intros H. assert (A : forall n r, n < 128 -> characters r -> characters (byte n r)) by (intros; constructor; assumption). apply existsb_exists in H. destruct H as (t & HI & E). apply String.eqb_eq in E. subst t.
  repeat (destruct HI as [<-|HI]); [apply (A 119); [lia|constructor]|apply (A 97); [lia|constructor]|apply (A 98); [lia|constructor]|apply (A 121); [lia|constructor]|apply (A 120); [lia|constructor]| |destruct HI].
  apply (ch_2 195 169); [lia|lia|]. apply (A 47); [lia|]. apply (A 32); [lia|]. apply (A 34); [lia|]. apply (A 120); [lia|]. apply (A 34); [lia|]. apply (A 32); [lia|]. apply (A 60); [lia|]. apply (A 98); [lia|]. apply (A 62); [lia|]. constructor.
Qed.
Lemma sample_good : goMap sample /\ texts characters sample /\ finite sample /\ depth 10000 sample /\ texts calmText sample.
Proof. split; [apply check_goMap; reflexivity|]. split; [apply (check_texts _ _ _ sample_chars); reflexivity|]. split; [apply check_finite; reflexivity|]. split; [apply check_depth; reflexivity|]. apply (check_texts calmb _ _ calmb_calm). reflexivity. Qed.
Definition sampleText : string := "{""a"":[""" ++ eAcute ++ "/ \""x\"" \u" ++ "003cb\u" ++ "003e"",null,{}],""b"":{""x"":0,""y"":true},""w"":-1.5e3}".
Example C96_marshal_example : (goMap sample /\ texts characters sample /\ finite sample /\ depth 10000 sample) /\ MarshalJSON Lit sample = Ok sampleText /\ exists m', UnmarshalJSON Lit sampleText = Ok (Some m') /\ map fst m' = ["a"; "b"; "w"].
Proof. split; [destruct sample_good as (H1 & H2 & H3 & H4 & _); auto|]. split; [reflexivity|]. eexists. split; reflexivity. Qed.
Example C96_round_example : (goMap sample /\ texts characters sample /\ finite sample /\ depth 10000 sample /\ texts calmText sample) /\
  ToJSON Lit (skipn 2 sample) = "{" ++ String newline ("  ""b"": {" ++ String newline ("    ""x"": 0," ++ String newline ("    ""y"": true" ++ String newline ("  }" ++ String newline "}")))).
Proof. split; [exact sample_good|reflexivity]. Qed.
Example C96_stable_example : exists m, ParseJSON Lit " {""a"":1, /* two */ ""b"":[2, """"], ""a"":3} " = Ok (Some m) /\ MarshalJSON Lit m = Ok "{""a"":3,""b"":[2,""""]}".
Proof. eexists. split; reflexivity. Qed.
Example C96_order_example : same Lit (JMap sample) (JMap (rev sample)) /\ rev sample <> sample /\ ToJSON Lit (rev sample) = ToJSON Lit sample.
Proof.
  split; [|split; [discriminate|reflexivity]]. apply (same_map _ sample sample); [|apply Permutation_rev]. assert (G : forall l : list (string * jv Lit), Forall2 (fun a b => fst a = fst b /\ same Lit (snd a) (snd b)) l l) by (induction l; constructor; [split; [reflexivity|apply same_refl]|assumption]). apply G.
Qed.
Example C96_ends_example : ParseJSON Lit "{""a"":1" = Err /\ ParseJSON Lit "[1]" = Err /\ ParseJSON Lit "{""a"":01}" = Err /\ ParseJSON Lit "[[[[" = Err /\ ParseJSON Lit "{} x" = Err /\ ParseJSON Lit "{}" = Ok (Some []).
Proof. repeat split. Qed.
Example C96_refuse_example : let m : list (string * jv Lit) := [("a", JList [num "1"; JNum (A := Lit) None])] in ~ finite m /\ MarshalJSON Lit m = Err.
Proof.
  split; [|reflexivity]. intros H. assert (K : jfinite Lit None = true); [|discriminate]. apply H. eapply inside_map; [left; reflexivity|]. eapply inside_list; [right; left; reflexivity|]. apply inside_self.
Qed.
Example C96_last_example : let v := [("a", num "1")] in let w := [("b", JList (A := Lit) [])] in (goMap v /\ texts characters v /\ finite v) /\ (goMap w /\ texts characters w /\ finite w) /\ depth 9999 v /\ depth 9999 w /\
  MarshalJSON Lit v = Ok "{""a"":1}" /\ MarshalJSON Lit w = Ok "{""b"":[]}" /\ UnmarshalJSON Lit "{""k"":{""a"":1},""k"":{""b"":[]}}" = Ok (Some [("k", JMap w)]).
Proof. split; [good|]. split; [good|]. split; [apply check_depth; reflexivity|]. split; [apply check_depth; reflexivity|]. repeat split. Qed.
Example C96_text_example : characters eAcute /\ UnmarshalJSON Lit ("{""k"":""" ++ eAcute ++ """}") = Ok (Some [("k", JText eAcute)]).
Proof. split; [apply (ch_2 195 169); [lia|lia|constructor]|reflexivity]. Qed.
Example C96_unicode_example : hexOf "0" 0 /\ hexOf "e" 14 /\ hexOf "E" 14 /\ hexOf "9" 9 /\ point eAcute = Some 233 /\ UnmarshalJSON Lit ("{""k"":""" ++ hexText "0" "0" "E" "9" ++ """}") = Ok (Some [("k", JText eAcute)]).
Proof. repeat split; first [left; reflexivity | right; reflexivity]. Qed.
Example C96_pair_example : exists s, UnmarshalJSON Lit ("{""k"":""" ++ (hexText "d" "8" "3" "d" ++ hexText "d" "e" "0" "0") ++ """}") = Ok (Some [("k", JText s)]) /\ point s = Some 128512.
Proof. eexists. split; reflexivity. Qed.

(** *** what is not read back *)
(** A text with the start of a comment is written as it is, and ParseJSON takes it for one: the map is not read back, or another one is. *)
Theorem C96_comment_refuted :
  (exists m : list (string * jv Lit), goMap m /\ texts characters m /\ finite m /\ depth 10000 m /\ UnmarshalJSON Lit (ToJSON Lit m) = Ok (Some m) /\ ParseJSON Lit (ToJSON Lit m) = Err) /\
  (exists m m' : list (string * jv Lit), goMap m /\ texts characters m /\ finite m /\ depth 10000 m /\ UnmarshalJSON Lit (ToJSON Lit m) = Ok (Some m) /\ ParseJSON Lit (ToJSON Lit m) = Ok (Some m') /\ length m' <> length m).
Proof.
  split.
  - exists [("a", JText "//")]. split; [apply check_goMap; reflexivity|]. split; [apply (check_texts _ _ _ asciib_chars); reflexivity|]. split; [apply check_finite; reflexivity|]. split; [apply check_depth; reflexivity|]. split; reflexivity.
  - exists [("a", JText "/*"); ("b", JText "*/")], [("a", JText "")]. split; [apply check_goMap; reflexivity|]. split; [apply (check_texts _ _ _ asciib_chars); reflexivity|]. split; [apply check_finite; reflexivity|]. split; [apply check_depth; reflexivity|]. repeat split. discriminate.
Qed.
(** The bytes of a text that are no character are not read back. *)
Theorem C96_bytes_refuted : exists (m m' : list (string * jv Lit)) (s : string), m = [("a", JText s)] /\ ~ characters s /\ ParseJSON Lit (ToJSON Lit m) = Ok (Some m') /\ ~ same Lit (JMap m) (JMap m').
Proof.
  exists [("a", JText (String "255" ""))], [("a", JText replacement)], (String "255" ""). split; [reflexivity|]. split; [|split; [reflexivity|]].
  - intros H. inversion H as [|a r Ha Hr E|a b r Ha Hb Hr|a b c r Ha Hc Hr|a b c d r Ha Hc Hd Hr]; subst. apply (f_equal code) in E. rewrite code_of in E by lia. cbn in E. lia.
  - intros H. inversion H as [| | | | |? k m HF HP E1 E2]; subst. inversion HF as [|? b ? k' [H1 H2] HF']; subst. inversion HF'; subst. apply Permutation_length_1 in HP. subst b. cbn in H2. inversion H2.
Qed.
(** The text null is read without an error, and there is no map then: the next thing put into it ends the program (a nil map). *)
Theorem C96_null_refuted : ParseJSON Lit "null" = Ok None /\ ParseJSON Lit " /* no document */ null" = Ok None. Proof. split; reflexivity. Qed.
