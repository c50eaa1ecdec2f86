(** C96, continued: what is read where texts are not as the program writes them, and what never appears in the ones it writes. *)
From Coq Require Import String Ascii List NArith Bool Lia Permutation.
From Verif Require Import Num DynModel Comments Json JsonProofs Prop_C96.
Import ListNotations.
Local Open Scope string_scope.
Local Open Scope N_scope.

(** *** the spec *)
Definition blankByte (c : ascii) : Prop := In c [" "%char; ascii_of_N 9; ascii_of_N 10; ascii_of_N 13].
Definition bytesOf (P : ascii -> Prop) (s : string) : Prop := forall c, In c (list_ascii_of_string s) -> P c.
Definition blank : string -> Prop := bytesOf blankByte.
(** a backslash and [e] stand for the byte [c] *)
Inductive standsFor : ascii -> ascii -> Prop :=
| st_quote : standsFor """" """" | st_backslash : standsFor "\" "\" | st_slash : standsFor "/" "/"
| st_b : standsFor "b" (ascii_of_N 8) | st_t : standsFor "t" (ascii_of_N 9) | st_n : standsFor "n" (ascii_of_N 10) | st_f : standsFor "f" (ascii_of_N 12) | st_r : standsFor "r" (ascii_of_N 13).
(** maps in maps *)
Fixpoint chain {A : Type} (n : nat) : list (string * jv A) := match n with O => [] | S n => [("k", JMap (chain n))] end.

(** *** proofs *)
Lemma blank_every s : blank s <-> every space s.
Proof.
  unfold blank, bytesOf. induction s as [|c s IH]; cbn [list_ascii_of_string every]; [split; [constructor|intros _ c []]|].
  assert (B : blankByte c <-> space c = true).
  { unfold blankByte, space. rewrite !orb_true_iff, !N.eqb_eq. cbn [In]. split.
    - intros [<- |[<- |[<- |[<- |[]]]]]; cbv; auto.
    - intros [[[H|H]|H]|H]; (apply (f_equal ascii_of_N) in H; rewrite of_code in H; subst c); cbv; auto. }
  rewrite <- IH, <- B. split; [intros H; split; [apply H; left; reflexivity|intros d Hd; apply H; right; exact Hd]|intros [H1 H2] d [<- |Hd]; auto].
Qed.
Lemma not_blank c : ~ blankByte c -> space c = false.
Proof. intros H. destruct (space c) eqn:E; [|reflexivity]. exfalso. apply H. apply (proj2 (blank_every (String c ""))); [split; [exact E|exact I]|left; reflexivity]. Qed.
Lemma space_before a c s : blank a -> space c = false -> skip (a ++ String c s) = String c s.
Proof. intros B H. rewrite skip_space by (apply blank_every, B). apply skip_not, H. Qed.

Section Claims.
Context (T : NumText).
Notation jv := (jv T).
Lemma big_fuel s f r : (forall n, value T (n + f) 10000 s = r) -> UnmarshalJSON T s = bind r (fun '(v, r) => match skip r with "" => match v with JMap l => Ok (Some l) | JNull => Ok None | _ => Err end | _ => Err end).
Proof. intros H. unfold UnmarshalJSON. rewrite <- (value_fuel T s 10000 (S (2 * String.length s) + f)) by lia. rewrite H. reflexivity. Qed.

(** A backslash and another byte: the eight that stand for one byte, u (C96_unicode, C96_pair), and an error for all others. *)
Theorem C96_escapes e : (forall c, standsFor e c -> UnmarshalJSON T ("{""k"":""" ++ String "\" (String e "") ++ """}") = Ok (Some [("k", JText (String c ""))])) /\
  ((forall c, ~ standsFor e c) -> e <> "u"%char -> forall r, UnmarshalJSON T ("{""k"":""" ++ String "\" (String e r)) = Err).
Proof.
  split.
  - intros c S. apply unmarshal_literal. destruct S; reflexivity.
  - intros N U r. rewrite (big_fuel _ 4 Err); [reflexivity|]. intros n. replace (n + 4)%nat with (S (S (S (S n)))) by lia.
    assert (X : unescape e = None).
    { unfold unescape. repeat match goal with |- context [Ascii.eqb e ?x] => destruct (Ascii.eqb_spec e x) as [-> |_]; [exfalso; eapply N; constructor|] end. reflexivity. }
    assert (L : literal 0 (String "\" (String e r)) = None). { cbn [literal]. change (Ascii.eqb "\" quote) with false. change (Ascii.eqb "\" backslash) with true. cbv iota. apply Ascii.eqb_neq in U. rewrite U, X. reflexivity. }
    rewrite value_S. cbn [append]. rewrite skip_not by reflexivity. cbn [Ascii.eqb Bool.eqb]. change (10000 =? 0) with false. cbv iota. rewrite skip_not by reflexivity. cbn [Ascii.eqb Bool.eqb]. rewrite entries_S. change (Ascii.eqb """" quote) with true. cbv iota.
    replace (literal 0 (String "k" (String """" (String ":" (String """" (String "\" (String e r))))))) with (Some ("k", String ":" (String """" (String "\" (String e r))))) by reflexivity. rewrite skip_not by reflexivity. cbn [Ascii.eqb Bool.eqb]. rewrite value_S, skip_not by reflexivity. cbn [Ascii.eqb Bool.eqb quote].
    rewrite L. reflexivity.
Qed.

(** White space may be anywhere between the parts. *)
Theorem C96_blank a b c d e f g h i j : blank a -> blank b -> blank c -> blank d -> blank e -> blank f -> blank g -> blank h -> blank i -> blank j ->
  UnmarshalJSON T (a ++ "{" ++ b ++ """k""" ++ c ++ ":" ++ d ++ "[" ++ e ++ "true" ++ f ++ "," ++ g ++ "null" ++ h ++ "]" ++ i ++ "}" ++ j) = Ok (Some [("k", JList [JBool true; JNull])]).
Proof.
  intros Ha Hb Hc Hd He Hf Hg Hh Hi Hj. rewrite (big_fuel _ 8 (Ok (JMap [("k", JList [JBool true; JNull])], j))).
  - cbn [bind]. rewrite <- (app_nil_str j), skip_space by (apply blank_every, Hj). reflexivity.
  - intros n. replace (n + 8)%nat with (S (S (S (S (S (S (S (S n)))))))) by lia. cbn [append].
    rewrite value_S, space_before by easy. cbn [Ascii.eqb Bool.eqb]. change (10000 =? 0) with false. cbv iota. rewrite space_before by easy. cbn [Ascii.eqb Bool.eqb]. rewrite entries_S. change (Ascii.eqb """" quote) with true. cbv iota.
    change (literal 0 (String "k" (String """" ?x))) with (Some ("k", x)). cbv iota. rewrite space_before by easy. cbn [Ascii.eqb Bool.eqb]. rewrite value_S, space_before by easy. cbn [Ascii.eqb Bool.eqb]. change (10000 - 1 =? 0) with false. cbv iota. rewrite space_before by easy. cbn [Ascii.eqb Bool.eqb].
    rewrite elements_S, value_S, skip_not by reflexivity. cbn [Ascii.eqb Bool.eqb quote after bind]. rewrite space_before by easy. cbn [Ascii.eqb Bool.eqb]. rewrite elements_S, value_S, space_before by easy. cbn [Ascii.eqb Bool.eqb quote after bind]. rewrite space_before by easy. cbn [Ascii.eqb Bool.eqb bind]. rewrite space_before by easy. reflexivity.
Qed.

Lemma unmarshal_ends s : UnmarshalJSON T s = Err \/ exists o, UnmarshalJSON T s = Ok o.
Proof.
  unfold UnmarshalJSON. pose proof (proj1 (steps T (S (2 * String.length s))) 10000 s ltac:(lia)) as K. pose proof (proj1 (noPanic T (S (2 * String.length s))) 10000 s) as P. destruct (value T _ 10000 s) as [[v r]| | |]; try congruence; try contradiction; [|left; reflexivity].
  cbn [bind]. destruct (skip r); [|left; reflexivity]. destruct v; eauto.
Qed.
Lemma elements_list f : forall room l acc v w, elements T f room l acc = Ok (v, w) -> exists z, v = JList z.
Proof.
  induction f as [|f IH]; intros room l acc v w; [discriminate|]. rewrite elements_S. destruct (value T f (room - 1) l) as [[v0 r0]| | |]; try discriminate. cbn [bind]. destruct (skip r0) as [|x0 y0]; [discriminate|]. destruct (Ascii.eqb x0 ","); [apply IH|]. destruct (Ascii.eqb x0 "]"); [|discriminate]. intros [= <- <-]. eauto.
Qed.
(** Before the bracket of a map (or null) there can be nothing but white space, and nothing else behind its end. *)
Theorem C96_nothing_else a b d c s : blank a -> blank b -> blank d -> ~ blankByte c ->
  (c <> "{"%char -> c <> "n"%char -> UnmarshalJSON T (a ++ String c s) = Err) /\ UnmarshalJSON T (a ++ "{" ++ b ++ "}" ++ d ++ String c s) = Err /\ UnmarshalJSON T a = Err.
Proof.
  intros Ha Hb Hd N. apply not_blank in N. split; [|split].
  - intros N1 N2. apply Ascii.eqb_neq in N1, N2. destruct (unmarshal_ends (a ++ String c s)) as [E|[o E]]; [exact E|exfalso]. revert E. unfold UnmarshalJSON. rewrite value_S, space_before by easy. rewrite N1, N2. generalize (2 * String.length (a ++ String c s))%nat. intros F.
    destruct (Ascii.eqb c "["); [|destruct (Ascii.eqb c quote); [|destruct (Ascii.eqb c "t"); [|destruct (Ascii.eqb c "f")]]].
    + change (10000 =? 0) with false. cbv iota. destruct (skip s) as [|x y]; [discriminate|]. destruct (Ascii.eqb x "]"); [cbn [bind]; destruct (skip y); discriminate|].
      destruct (elements T F 10000 (String x y) []) as [[v w]| | |] eqn:E; try discriminate. apply elements_list in E as [z ->]. cbn [bind]. destruct (skip w); discriminate.
    + destruct (literal 0 s) as [[u w]|]; [|discriminate]. cbn [bind]. destruct (skip w); discriminate.
    + destruct (after _ s) as [w|]; [|discriminate]. cbn [bind]. destruct (skip w); discriminate.
    + destruct (after _ s) as [w|]; [|discriminate]. cbn [bind]. destruct (skip w); discriminate.
    + destruct (span _) as [u w]. destruct (isNumber u); [|discriminate]. destruct (jread T u); [|discriminate]. cbn [bind]. destruct (skip w); discriminate.
  - rewrite (big_fuel _ 1 (Ok (JMap [], d ++ String c s))).
    + cbn [bind]. rewrite space_before by easy. reflexivity.
    + intros n. replace (n + 1)%nat with (S n) by lia. cbn [append]. rewrite value_S, space_before by easy. cbn [Ascii.eqb Bool.eqb]. change (10000 =? 0) with false. cbv iota. rewrite space_before by easy. reflexivity.
  - unfold UnmarshalJSON. rewrite value_S, <- (app_nil_str a), skip_space by (apply blank_every, Ha). reflexivity.
Qed.

(** What is written has no <, > and & and no control byte but the ends of lines, and no line ends where the text is on one line.  (Texts that are put into a page do not end its parts.) *)
Definition tame (nl : bool) (c : ascii) : Prop := c <> "<"%char /\ c <> ">"%char /\ c <> "&"%char /\ (32 <= code c \/ nl = true /\ code c = 10).
Lemma bytesOf_app (P : ascii -> Prop) a b : bytesOf P a -> bytesOf P b -> bytesOf P (a ++ b).
Proof. unfold bytesOf. intros A B c. induction a as [|x a IH]; cbn [append list_ascii_of_string]; [apply B|]. intros [<- |H]; [apply A; left; reflexivity|]. apply IH; [|exact H]. intros d D. apply A. right. exact D. Qed.
Lemma bytesOf_cons (P : ascii -> Prop) c s : P c -> bytesOf P s -> bytesOf P (String c s).
Proof. intros A B d [<- |H]; auto. Qed.
Lemma bytesOf_nil (P : ascii -> Prop) : bytesOf P "". Proof. intros c []. Qed.
Lemma tame_high nl c : 128 <= code c -> tame nl c.
Proof. intros H. repeat split; [intros ->; now apply H..|left; lia]. Qed.
Lemma tame_hex nl n : n < 16 -> tame nl (hexDigit n).
Proof.
  intros H. assert (n = N.of_nat (N.to_nat n)) by lia. destruct (N.to_nat n) as [|[|[|[|[|[|[|[|[|[|[|[|[|[|[|[|k]]]]]]]]]]]]]]]]; subst n; try (repeat split; [discriminate..|left; cbv; discriminate]). lia.
Qed.
Ltac plain := repeat (apply bytesOf_cons; [repeat split; [discriminate..|left; cbv; discriminate]|]).
Lemma tame_safe nl c : safe c = true -> tame nl c.
Proof.
  unfold safe. rewrite andb_true_iff, negb_true_iff, !orb_false_iff, between_spec. intros [H [[[[_ _] H3] H4] H5]]. apply Ascii.eqb_neq in H3, H4, H5. repeat split; auto. left. lia.
Qed.
Lemma tame_escaped nl c : code c < 128 -> bytesOf (tame nl) (escaped c).
Proof.
  intros H. unfold escaped. destruct (Ascii.eqb_spec c quote) as [-> |_]; [plain; apply bytesOf_nil|]. destruct (Ascii.eqb_spec c backslash) as [-> |_]; [plain; apply bytesOf_nil|]. cbn [orb].
  destruct (code c =? 10); [plain; apply bytesOf_nil|]. destruct (code c =? 13); [plain; apply bytesOf_nil|]. destruct (code c =? 9); [plain; apply bytesOf_nil|].
  cbn [append]. plain. apply bytesOf_cons; [apply tame_hex; apply N.div_lt_upper_bound; lia|]. apply bytesOf_cons; [apply tame_hex, N.mod_lt; lia|apply bytesOf_nil].
Qed.
Lemma runeLen_high c s k : code c >= 128 -> runeLen (String c s) = S k -> forall i x, (i < k)%nat -> String.get i s = Some x -> 128 <= code x.
Proof.
  intros H E i x Hi G. cbn [runeLen] in E. rewrite (proj2 (N.ltb_ge _ _)) in E by lia.
  destruct s as [|b s]; [discriminate|]. destruct (between 194 223 c).
  { destruct (between 128 191 b) eqn:B; [|discriminate]. injection E as <-. apply between_spec in B. destruct i; [|lia]. injection G as <-. lia. }
  destruct (between 224 239 c).
  { destruct (between _ _ b) eqn:B; [|discriminate]. destruct s as [|d s]; [discriminate|]. destruct (between 128 191 d) eqn:D; [|discriminate]. injection E as <-. apply between_spec in B, D. destruct i as [|[|i]]; [| |lia]; injection G as <-; [destruct (code c =? 224); lia|lia]. }
  destruct (between 240 244 c); [|discriminate].
  destruct (between _ _ b) eqn:B; [|discriminate]. destruct s as [|d [|e s]]; [discriminate|discriminate|]. destruct (between 128 191 d && between 128 191 e) eqn:D; [|discriminate]. injection E as <-. apply andb_true_iff in D as [D1 D2]. apply between_spec in B, D1, D2.
  destruct i as [|[|[|i]]]; [| | |lia]; injection G as <-; [destruct (code c =? 240); lia|lia|lia].
Qed.
Lemma tame_escape nl s : forall keep n, (keep = true -> forall i x, (i < n)%nat -> String.get i s = Some x -> 128 <= code x) -> bytesOf (tame nl) (escape keep n s).
Proof.
  induction s as [|c s IH]; intros keep n H; [apply bytesOf_nil|]. destruct n as [|n]; cbn [escape].
  - destruct (N.ltb_spec (code c) 128) as [L|L].
    + apply bytesOf_app; [|apply IH; intros _ i x Hi; lia]. destruct (safe c) eqn:S; [apply bytesOf_cons; [apply tame_safe, S|apply bytesOf_nil]|apply tame_escaped, L].
    + destruct (runeLen (String c s)) as [|k] eqn:E; [cbn [append]; plain; apply IH; intros _ i x Hi; lia|]. destruct (separator (String c s)) as [d|] eqn:S.
      * cbn [append]. plain. apply bytesOf_cons; [|apply IH; discriminate]. unfold separator in S. destruct s as [|b [|x s]]; [discriminate|discriminate|]. destruct ((code c =? 226) && (code b =? 128)); [|discriminate]. destruct (code x =? 168); [injection S as <-; repeat split; [discriminate..|left; cbv; discriminate]|]. destruct (code x =? 169); [injection S as <-; repeat split; [discriminate..|left; cbv; discriminate]|discriminate].
      * apply bytesOf_cons; [apply tame_high, L|]. apply IH. intros _. apply (runeLen_high c s k); [lia|exact E].
  - destruct keep; [|apply IH; discriminate]. apply bytesOf_cons; [apply tame_high, (H eq_refl 0%nat); [lia|reflexivity]|]. apply IH. intros _ i x Hi. apply (H eq_refl (S i)). lia.
Qed.
Lemma tame_quoted nl s : bytesOf (tame nl) (quoted s).
Proof. unfold quoted. apply bytesOf_cons; [repeat split; [discriminate..|left; cbv; discriminate]|]. apply bytesOf_app; [apply tame_escape; intros _ i x Hi; lia|plain; apply bytesOf_nil]. Qed.
Lemma tame_blanks nl n : bytesOf (tame nl) (blanks n). Proof. induction n as [|n IH]; [apply bytesOf_nil|]. cbn [blanks append]. plain. exact IH. Qed.
Lemma tame_line ind d : bytesOf (tame ind) (line ind d).
Proof. unfold line. destruct ind; [|apply bytesOf_nil]. apply bytesOf_cons; [repeat split; [discriminate..|right; split; reflexivity]|apply tame_blanks]. Qed.
Lemma tame_colon ind : bytesOf (tame ind) (colon ind). Proof. destruct ind; plain; apply bytesOf_nil. Qed.
Lemma tame_number nl a : every numberByte a -> bytesOf (tame nl) a.
Proof.
  induction a as [|c a IH]; [intros _; apply bytesOf_nil|]. intros [H1 H2]. apply bytesOf_cons; [|apply IH, H2]. unfold numberByte, digit in H1. rewrite !orb_true_iff, between_spec in H1.
  destruct H1 as [[[[[H|H]|H]|H]|H]|H]; [repeat split; [intros ->; destruct H as [H0 H]; (now apply H) || (now apply H0)..|left; lia]|apply Ascii.eqb_eq in H; subst c; repeat split; [discriminate..|left; cbv; discriminate]..].
Qed.
Lemma tame_write (Laws : NumTextLaws T) ind v : writable T v = true -> forall d, bytesOf (tame ind) (write T ind d v).
Proof.
  induction v as [|b|x|s|l IH|l IH] using (jv_rect' T); intros W d; cbn [writable] in W.
  - plain. apply bytesOf_nil.
  - destruct b; plain; apply bytesOf_nil.
  - apply tame_number, number_every, (law_show T Laws x W).
  - apply tame_quoted.
  - destruct l as [|w l]; [plain; apply bytesOf_nil|]. rewrite write_list. inversion_clear IH as [|? ? Hw Hl]. apply andb_true_iff in W as [Ww Wl].
    apply bytesOf_app; [plain; apply bytesOf_nil|]. apply bytesOf_app; [apply tame_line|]. apply bytesOf_app; [apply Hw, Ww|]. clear w Hw Ww.
    induction Hl as [|w l Hw Hl IH]; cbn [moreItems]; [apply bytesOf_app; [apply tame_line|plain; apply bytesOf_nil]|]. apply andb_true_iff in Wl as [Ww Wl]. apply bytesOf_app; [plain; apply bytesOf_nil|]. apply bytesOf_app; [apply tame_line|]. apply bytesOf_app; [apply Hw, Ww|apply IH, Wl].
  - destruct l as [|e l]; [plain; apply bytesOf_nil|]. rewrite write_map. inversion_clear IH as [|? ? Hw Hl]. apply andb_true_iff in W as [Ww Wl].
    apply bytesOf_app; [plain; apply bytesOf_nil|]. apply bytesOf_app; [apply tame_line|]. apply bytesOf_app; [apply tame_quoted|]. apply bytesOf_app; [apply tame_colon|]. apply bytesOf_app; [apply Hw, Ww|]. clear e Hw Ww.
    induction Hl as [|e l Hw Hl IH]; cbn [moreEntries]; [apply bytesOf_app; [apply tame_line|plain; apply bytesOf_nil]|]. apply andb_true_iff in Wl as [Ww Wl]. apply bytesOf_app; [plain; apply bytesOf_nil|]. apply bytesOf_app; [apply tame_line|]. apply bytesOf_app; [apply tame_quoted|]. apply bytesOf_app; [apply tame_colon|]. apply bytesOf_app; [apply Hw, Ww|apply IH, Wl].
Qed.
Lemma writable_ordered v : writable T v = true -> writable T (ordered T v) = true.
Proof.
  induction v as [|b|x|s|l IH|l IH] using (jv_rect' T); cbn [writable ordered]; auto; rewrite !forallb_forall; intros W; rewrite Forall_forall in IH.
  - intros y Y. apply in_map_iff in Y as (z & <- & Z). auto.
  - intros y Y. apply (Permutation_in _ (sortKeys_perm _)) in Y. apply in_map_iff in Y as (z & <- & Z). apply IH; auto.
Qed.
Theorem C96_tame (Laws : NumTextLaws T) m : (forall t, MarshalJSON T m = Ok t -> bytesOf (tame false) t) /\ bytesOf (tame true) (ToJSON T m).
Proof.
  unfold MarshalJSON, ToJSON. destruct (writable T (JMap m)) eqn:W; [|split; [discriminate|apply bytesOf_nil]]. apply writable_ordered in W.
  split; [intros t [= <-]; apply (tame_write Laws false _ W)|apply (tame_write Laws true _ W)].
Qed.

(** Maps in maps are written however deep they are; 10000 can be read, and more cannot. *)
Lemma chain_writable n : writable T (JMap (chain n)) = true. Proof. induction n as [|n IH]; [reflexivity|]. cbn [chain writable forallb snd] in *. rewrite IH. reflexivity. Qed.
Lemma chain_ordered n : ordered T (JMap (chain n)) = JMap (chain n).
Proof. induction n as [|n IH]; [reflexivity|]. cbn [chain ordered map snd fst] in *. rewrite IH. reflexivity. Qed.
Lemma chain_deep n : deep T (JMap (chain n)) = N.of_nat (S n).
Proof. induction n as [|n IH]; [reflexivity|]. cbn [chain deep map snd fold_right] in *. rewrite IH. lia. Qed.
Lemma chain_refused ind n : forall d room r f, room <= N.of_nat n -> value T (f + 2 * S n) room (write T ind d (JMap (chain n)) ++ r) = Err.
Proof.
  induction n as [|n IH]; intros d room r f H.
  - replace room with 0 by lia. replace (f + 2 * 1)%nat with (S (S f)) by lia. rewrite value_S. cbn [chain write append]. rewrite skip_not by reflexivity. reflexivity.
  - replace (f + 2 * S (S n))%nat with (S (S (f + 2 * S n)))%nat by lia. destruct (N.eqb_spec room 0) as [-> |R]; [rewrite value_S; cbn [chain]; rewrite write_map; cbn [append]; rewrite skip_not by reflexivity; reflexivity|].
    assert (H' : room - 1 <= N.of_nat n) by lia. rewrite value_S. cbn [chain]. rewrite write_map. cbn [append]. rewrite skip_not by reflexivity. cbn [Ascii.eqb Bool.eqb]. apply N.eqb_neq in R. rewrite R.
    cbn [moreEntries fst snd]. rewrite !app_str, skip_space by apply line_space. rewrite quoted_app, skip_not by reflexivity. cbn [Ascii.eqb Bool.eqb quote]. rewrite entries_S. change (Ascii.eqb """" quote) with true. cbv iota. change (String """" ?x) with (String quote x).
    assert (U : utf8 "k") by (apply (utf8_ascii "k" ""); [reflexivity|constructor]). rewrite (literal_escape "k" U).
    destruct ind; cbn [colon append]; rewrite skip_not by reflexivity; cbn [Ascii.eqb Bool.eqb].
    + match goal with |- context [value T ?u ?v (String " " ?x)] => rewrite (value_skip T u v (String " " x) x) by reflexivity end. rewrite IH by exact H'. reflexivity.
    + rewrite IH by exact H'. reflexivity.
Qed.
Lemma k_utf8 : utf8 "k". Proof. apply (utf8_ascii "k" ""); [reflexivity|constructor]. Qed.
Lemma chain_nice n : nice T (JMap (chain n)) /\ calmValue T (JMap (chain n)).
Proof.
  induction n as [|n [IH1 IH2]]; [split; constructor; constructor|]. cbn [chain]. split.
  - constructor; [constructor; [intros []|constructor]|constructor; [apply k_utf8|constructor]|constructor; [exact IH1|constructor]].
  - constructor. constructor; [split; [apply calmb_calm; reflexivity|exact IH2]|constructor].
Qed.
Theorem C96_deep_refuted (Laws : NumTextLaws T) n : 10000 <= N.of_nat n -> ToJSON T (chain n) <> "" /\ ParseJSON T (ToJSON T (chain n)) = Err /\ exists t, MarshalJSON T (chain n) = Ok t /\ UnmarshalJSON T t = Err.
Proof.
  intros H. assert (E : forall ind, UnmarshalJSON T (write T ind 0 (JMap (chain n))) = Err).
  { intros ind. rewrite (big_fuel _ (2 * S n) Err); [reflexivity|]. intros f. rewrite <- (app_nil_str (write T ind 0 (JMap (chain n)))). apply chain_refused, H. }
  unfold ToJSON, MarshalJSON. rewrite chain_writable, chain_ordered. split; [destruct n; discriminate|]. split; [|eauto].
  unfold ParseJSON. rewrite <- (app_nil_str (write _ _ _ _)), (Strip_write T Laws) by apply chain_nice. cbn [Strip]. rewrite app_nil_str. apply E.
Qed.
Theorem C96_deep (Laws : NumTextLaws T) n : N.of_nat n < 10000 -> ParseJSON T (ToJSON T (chain n)) = Ok (Some (chain n)).
Proof.
  intros H. unfold ToJSON, ParseJSON. rewrite chain_writable, chain_ordered, <- (app_nil_str (write _ _ _ _)), (Strip_write T Laws) by apply chain_nice. cbn [Strip]. rewrite app_nil_str.
  unfold UnmarshalJSON. rewrite (unmarshal_write T Laws); [reflexivity|apply chain_nice|rewrite chain_deep; lia].
Qed.
End Claims.

(** *** examples *)
Example C96_escapes_ex : UnmarshalJSON Lit "{""k"":""\f""}" = Ok (Some [("k", JText (String (ascii_of_N 12) ""))]) /\ UnmarshalJSON Lit "{""k"":""\/""}" = Ok (Some [("k", JText "/")]) /\ UnmarshalJSON Lit "{""k"":""\x41""}" = Err.
Proof.
  split; [apply (proj1 (C96_escapes Lit "f")); constructor|split; [apply (proj1 (C96_escapes Lit "/")); constructor|]]. apply (proj2 (C96_escapes Lit "x")); [intros c H; inversion H|discriminate].
Qed.
Lemma blank_dec s : (fix all (s : string) : bool := match s with String c r => space c && all r | "" => true end) s = true -> blank s.
Proof. intros H. apply blank_every. induction s as [|c s IH]; [exact I|]. apply andb_true_iff in H as [H1 H2]. split; auto. Qed.
Definition crlf : string := String (ascii_of_N 13) (String (ascii_of_N 10) "").
Example C96_blank_ex : UnmarshalJSON Lit (crlf ++ "{" ++ "  " ++ """k""" ++ "" ++ ":" ++ " " ++ "[" ++ String (ascii_of_N 9) "" ++ "true" ++ "" ++ "," ++ crlf ++ "null" ++ " " ++ "]" ++ crlf ++ "}" ++ crlf) = Ok (Some [("k", JList [JBool true; JNull])]).
Proof. apply C96_blank; apply blank_dec; reflexivity. Qed.
Example C96_nothing_else_ex : UnmarshalJSON Lit " [{}]" = Err /\ UnmarshalJSON Lit " { } {}" = Err /\ UnmarshalJSON Lit (crlf ++ " ") = Err /\ UnmarshalJSON Lit "xx{}" = Err.
Proof.
  assert (B : forall c, space c = false -> ~ blankByte c). { intros c H K. cbn in K. destruct K as [<- |[<- |[<- |[<- |[]]]]]; discriminate. }
  assert (W : forall a b d c r, _) by exact (C96_nothing_else Lit).
  destruct (W " " "" "" "["%char "{}]") as (H1 & _ & _); try (apply blank_dec; reflexivity); [apply B; reflexivity|].
  destruct (W " " " " " " "{"%char "}") as (_ & H2 & _); try (apply blank_dec; reflexivity); [apply B; reflexivity|].
  destruct (W (crlf ++ " ") "" "" "x"%char "x{}") as (_ & _ & H3); try (apply blank_dec; reflexivity); [apply B; reflexivity|].
  destruct (W "" "" "" "x"%char "x{}") as (H4 & _ & _); try (apply blank_dec; reflexivity); [apply B; reflexivity|].
  split; [apply H1; discriminate|]. split; [exact H2|]. split; [exact H3|apply H4; discriminate].
Qed.
Example C96_tame_ex : bytesOf (tame false) ("{""t"":""" ++ "\u" ++ "003cb" ++ "\u" ++ "003e \n" ++ "\u" ++ "0026""}").
Proof. apply (proj1 (C96_tame Lit Lit_laws [("t", JText ("<b> " ++ String (ascii_of_N 10) "&"))])). reflexivity. Qed.
Example C96_deep_ex : ParseJSON Lit (ToJSON Lit (chain 3)) = Ok (Some [("k", JMap [("k", JMap [("k", JMap [])])])]) /\ exists n, ToJSON Lit (chain n) <> "" /\ ParseJSON Lit (ToJSON Lit (chain n)) = Err.
Proof. split; [apply (C96_deep Lit Lit_laws 3); reflexivity|]. exists (N.to_nat 10000). destruct (C96_deep_refuted Lit Lit_laws (N.to_nat 10000)) as (H1 & H2 & _); [rewrite N2Nat.id; lia|]. split; assumption. Qed.
