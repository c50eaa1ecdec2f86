(** C75: the comments of a document, and nothing else, are left out before it is read. *)
From Coq Require Import String Ascii List Bool Lia Arith.
From Verif Require Import Comments.
Import ListNotations.
Local Open Scope string_scope.

(** *** what a text with comments is made of, the spec *)
Definition nl : string := String "010" "".
Definition quote : ascii := """"%char.
Definition backslash : ascii := "\"%char.
Definition has (a s : string) : Prop := exists l r, s = (l ++ a ++ r).
(** the inside of a string literal: letters, where a quote or backslash must have a backslash before *)
Inductive inside : string -> Prop :=
| inside_nil : inside ""
| inside_letter c s : c <> quote -> c <> backslash -> inside s -> inside (String c s)
| inside_escape c s : inside s -> inside (String backslash (String c s)).
(** A letter outside of literals and comments, a string literal, a comment to the end of the line, and a comment between marks. *)
Inductive piece := Letter (c : ascii) | Literal (s : string) | LineC (s : string) | BlockC (s : string).
Definition good (p : piece) : Prop :=
  match p with
  | Letter c => c <> "/"%char /\ c <> quote
  | Literal s => inside s
  | LineC s => ~ has nl s
  | BlockC s => ~ has "*/" s
  end.
Definition text (p : piece) : string :=
  match p with
  | Letter c => String c ""
  | Literal s => String quote s ++ String quote ""
  | LineC s => "//" ++ s ++ nl
  | BlockC s => "/*" ++ s ++ "*/"
  end.
Definition comment (p : piece) : bool := match p with LineC _ | BlockC _ => true | _ => false end.
Definition render (ps : list piece) : string := fold_right (fun p r => text p ++ r) "" ps.
(** No literal has the start of a comment inside. *)
Definition quiet (p : piece) : Prop := match p with Literal s => ~ has "//" s /\ ~ has "/*" s | _ => True end.

(** *** lemmas *)
Lemma render_cons p ps : render (p :: ps) = text p ++ render ps. Proof. reflexivity. Qed.
Lemma app_assoc_str a b c : (a ++ (b ++ c) = (a ++ b) ++ c). Proof. induction a as [|x a IH]; cbn; congruence. Qed.
Lemma app_len a b : String.length (a ++ b) = String.length a + String.length b. Proof. induction a as [|x a IH]; cbn; congruence. Qed.
Lemma has_cons a c s : has a s -> has a (String c s). Proof. intros (l & r & ->). exists (String c l), r. reflexivity. Qed.
Lemma has_here a r : has a (a ++ r). Proof. exists "", r. reflexivity. Qed.

Lemma afterLine_len s r : afterLine s = Some r -> String.length r < String.length s.
Proof. induction s as [|c s IH]; cbn [afterLine]; [discriminate|]. destruct (Ascii.eqb c newline); intros H; [injection H as ->; cbn; lia|]. apply IH in H. cbn. lia. Qed.
Lemma afterBlock_len s r : afterBlock s = Some r -> String.length r < String.length s.
Proof.
  induction s as [|c [|d s] IH]; cbn [afterBlock]; try discriminate. destruct (andb _ _); intros H; [injection H as ->; cbn; lia|]. apply IH in H. cbn in *. lia.
Qed.
Lemma afterComment_len s r : afterComment s = Some r -> String.length r < String.length s.
Proof.
  destruct s as [|c [|d s]]; cbn [afterComment]; try discriminate. destruct (Ascii.eqb c "/"); [|discriminate]. destruct (Ascii.eqb d "/"); [intros H; apply afterLine_len in H; cbn; lia|].
  destruct (Ascii.eqb d "*"); [intros H; apply afterBlock_len in H; cbn; lia|discriminate].
Qed.
Lemma stripN_enough n : forall m s, String.length s <= n -> n <= m -> stripN m s = stripN n s.
Proof.
  induction n as [|n IH]; intros m s H1 H2.
  - destruct s; [|cbn in H1; lia]. destruct m; reflexivity.
  - destruct m as [|m]; [lia|]. destruct s as [|c s]; [reflexivity|]. cbn [stripN]. destruct (afterComment (String c s)) as [r|] eqn:E.
    + apply afterComment_len in E. cbn in E, H1. apply IH; lia.
    + f_equal. cbn in H1. apply IH; lia.
Qed.
Lemma Strip_eq s : Strip s = match s with "" => "" | String c r => match afterComment s with Some r' => Strip r' | None => String c (Strip r) end end.
Proof.
  unfold Strip. destruct s as [|c s]; [reflexivity|]. cbn [String.length stripN]. destruct (afterComment (String c s)) as [r|] eqn:E; [|reflexivity].
  apply afterComment_len in E. cbn in E. apply stripN_enough; lia.
Qed.
Lemma Strip_letter c s : c <> "/"%char -> Strip (String c s) = String c (Strip s).
Proof. intros H. rewrite Strip_eq. unfold afterComment. apply Ascii.eqb_neq in H. destruct s as [|d s]; [reflexivity|]. rewrite H. reflexivity. Qed.
Lemma Strip_slash d s : d <> "/"%char -> d <> "*"%char -> Strip (String "/" (String d s)) = String "/" (Strip (String d s)).
Proof. intros H1 H2. rewrite Strip_eq. unfold afterComment. apply Ascii.eqb_neq in H1, H2. rewrite Ascii.eqb_refl, H1, H2. reflexivity. Qed.
Lemma afterLine_spec s r : ~ has nl s -> afterLine (s ++ nl ++ r) = Some r.
Proof.
  induction s as [|c s IH]; intros H; [reflexivity|]. cbn [append afterLine]. destruct (Ascii.eqb_spec c newline) as [->|N]; [exfalso; apply H; apply (has_here nl s)|]. apply IH. intros E. apply H, has_cons, E.
Qed.
Lemma afterBlock_spec s r : ~ has "*/" s -> afterBlock (s ++ "*/" ++ r) = Some r.
Proof.
  induction s as [|c s IH]; intros H; [reflexivity|]. assert (IH' := IH (fun E => H (has_cons _ _ _ E))). destruct s as [|d s].
  - cbn [append afterBlock]. replace (Ascii.eqb "*" "/") with false by reflexivity. rewrite andb_false_r. exact IH'.
  - cbn [append] in IH' |- *. cbn [afterBlock]. cbn [afterBlock] in IH'. destruct (Ascii.eqb_spec c "*") as [->|N]; [destruct (Ascii.eqb_spec d "/") as [->|N2]; [exfalso; apply H; apply (has_here "*/" s)|]|]; exact IH'.
Qed.
(** A text without the start of a comment, before a letter that does not complete one. *)
Lemma Strip_quiet s c r : ~ has "//" s -> ~ has "/*" s -> c <> "/"%char -> c <> "*"%char -> Strip (s ++ String c r) = (s ++ Strip (String c r)).
Proof.
  induction s as [|a s IH]; intros H1 H2 H3 H4; [reflexivity|]. assert (IH' := IH (fun E => H1 (has_cons _ _ _ E)) (fun E => H2 (has_cons _ _ _ E)) H3 H4). cbn [append]. rewrite <- IH'.
  destruct (Ascii.eqb_spec a "/") as [->|N]; [|apply Strip_letter; exact N]. destruct s as [|b s]; [apply Strip_slash; assumption|]. cbn [append]. apply Strip_slash; intros ->; [apply H1, (has_here "//" s)|apply H2, (has_here "/*" s)].
Qed.

(** *** the claims *)
(** In a text whose literals do not have the start of a comment inside, all comments and nothing else are left out. *)
Theorem C75_strip ps : (forall p, In p ps -> good p /\ quiet p) -> Strip (render ps) = render (filter (fun p => negb (comment p)) ps).
Proof.
  induction ps as [|p ps IH]; intros H; [reflexivity|]. assert (IH' : Strip (render ps) = _) by (apply IH; intros q Hq; apply H; right; exact Hq). destruct (H p (or_introl eq_refl)) as [G Q]. cbn [filter]. rewrite render_cons.
  destruct p as [c|s|s|s]; cbn [good quiet comment negb text] in *.
  - cbn [append]. rewrite Strip_letter by tauto. rewrite render_cons. cbn [text append]. rewrite IH'. reflexivity.
  - rewrite render_cons. cbn [text append]. rewrite Strip_letter by discriminate. rewrite <- !app_assoc_str. cbn [append]. rewrite Strip_quiet by (try tauto; discriminate). rewrite Strip_letter, IH' by discriminate. reflexivity.
  - rewrite <- !app_assoc_str, <- IH'. rewrite Strip_eq. cbn [append afterComment]. rewrite !Ascii.eqb_refl. rewrite afterLine_spec by exact G. reflexivity.
  - rewrite <- !app_assoc_str, <- IH'. rewrite Strip_eq. cbn [append afterComment]. rewrite !Ascii.eqb_refl. replace (Ascii.eqb "*" "/") with false by reflexivity. change (String "*" (String "/" (render ps))) with ("*/" ++ render ps). rewrite afterBlock_spec by exact G. reflexivity.
Qed.
Example C75_strip_example : let ps := [Letter "{"; BlockC " a * b // c "; Literal "a\""/b"; Letter ":"; LineC " /* not open "; Letter "1"; BlockC "*"; Letter "}"] in
  (forall p, In p ps -> good p /\ quiet p) /\ Strip (render ps) = "{""a\""/b"":1}".
Proof.
  cbn zeta. split; [|reflexivity]. assert (N : forall a s, (index 0 a s = None) -> a <> "" -> ~ has a s).
  { intros a s HI HN (l & r & ->). revert HI. induction l as [|c l IH]; cbn [append].
    - destruct a as [|x a]; [congruence|]. cbn [append index]. assert (P : prefix (String x a) (String x a ++ r) = true). { clear HN. induction (String x a) as [|y b IHb]; [destruct r; reflexivity|]. cbn [append prefix]. destruct (ascii_dec y y); [exact IHb|congruence]. } cbn [append] in P. rewrite P. discriminate.
    - destruct a as [|x a]; [congruence|]. cbn [index]. destruct (prefix (String x a) (String c (l ++ String x a ++ r))); [discriminate|]. destruct (index 0 (String x a) (l ++ String x a ++ r)); [discriminate|]. intros _. apply IH. reflexivity. }
  intros p H. repeat (destruct H as [<-|H]); try destruct H; cbn [good quiet]; split; try exact I; try (split; discriminate); try (apply N; [reflexivity|discriminate]); try (split; apply N; [reflexivity|discriminate|reflexivity|discriminate]).
  repeat (apply inside_escape || (apply inside_letter; [discriminate|discriminate|])). apply inside_nil.
Qed.
(** A text without the start of a comment is read as it is. *)
Theorem C75_plain s : ~ has "//" s -> ~ has "/*" s -> Strip s = s.
Proof.
  induction s as [|a s IH]; intros H1 H2; [reflexivity|]. assert (IH' := IH (fun E => H1 (has_cons _ _ _ E)) (fun E => H2 (has_cons _ _ _ E))). rewrite <- IH' at 2.
  destruct (Ascii.eqb_spec a "/") as [->|N]; [|apply Strip_letter; exact N]. destruct s as [|b s]; [reflexivity|]. apply Strip_slash; intros ->; [apply H1, (has_here "//" s)|apply H2, (has_here "/*" s)].
Qed.
Example C75_plain_example : Strip "{""w"":""a / b*/""}" = "{""w"":""a / b*/""}". Proof. reflexivity. Qed.

(** "//" inside of a literal starts a comment: the rest of the line is lost, with the end of the literal. *)
Theorem C75_url_refuted a s t b r : ~ has "//" (a ++ String quote s) -> ~ has "/*" (a ++ String quote s) -> (forall l, a ++ String quote s <> l ++ "/") -> ~ has nl (t ++ String quote b) ->
  Strip (a ++ text (Literal (s ++ "//" ++ t)) ++ b ++ nl ++ r) = (a ++ String quote s ++ Strip r).
Proof.
  intros H1 H2 H3 H4. assert (E1 : a ++ text (Literal (s ++ "//" ++ t)) ++ b ++ nl ++ r = (a ++ String quote s) ++ String "/" (String "/" ((t ++ String quote b) ++ nl ++ r))).
  { do 6 (cbn [text append]; rewrite <- ?app_assoc_str). reflexivity. }
  assert (E2 : a ++ String quote s ++ Strip r = (a ++ String quote s) ++ Strip r) by (rewrite <- app_assoc_str; reflexivity). rewrite E1, E2. clear E1 E2. revert H1 H2 H3. generalize (a ++ String quote s). intros p. induction p as [|c p IH]; intros H1 H2 H3.
  - cbn [append]. rewrite Strip_eq. cbn [afterComment]. rewrite !Ascii.eqb_refl. rewrite afterLine_spec by exact H4. reflexivity.
  - assert (IH' := IH (fun E => H1 (has_cons _ _ _ E)) (fun E => H2 (has_cons _ _ _ E)) (fun l E => H3 (String c l) (f_equal (String c) E))). cbn [append]. rewrite <- IH'.
    destruct (Ascii.eqb_spec c "/") as [->|N]; [|apply Strip_letter; exact N]. destruct p as [|b' p]; [exfalso; apply (H3 ""); reflexivity|]. cbn [append]. apply Strip_slash; intros ->; [apply H1, (has_here "//" p)|apply H2, (has_here "/*" p)].
Qed.
Example C75_url_example : Strip ("{""u"":""http://x"",""w"":1," ++ nl ++ """h"":2}") = "{""u"":""http:""h"":2}". Proof. reflexivity. Qed.
(** Two literals with the marks of a comment: what is between them is lost, and the text is a document still. *)
Theorem C75_hidden_refuted : exists ps, (forall p, In p ps -> good p /\ comment p = false) /\ render ps = "{""a"":""/*"",""b"":""*/""}" /\ Strip (render ps) = "{""a"":""""}".
Proof.
  exists [Letter "{"; Literal "a"; Letter ":"; Literal "/*"; Letter ","; Literal "b"; Letter ":"; Literal "*/"; Letter "}"]. split; [|split; reflexivity].
  intros p H. repeat (destruct H as [<-|H]); try destruct H; cbn [good comment]; split; try reflexivity; try (split; discriminate); repeat (apply inside_letter; [discriminate|discriminate|]); apply inside_nil.
Qed.
(** A comment on the last line, which has no end, is not left out, and what is read is not a document. *)
Theorem C75_last_refuted s t : ~ has "/" s -> ~ has "/" t -> ~ has nl t -> Strip (s ++ "//" ++ t) = (s ++ "//" ++ t).
Proof.
  assert (NO : forall c u, ~ has "/" (String c u) -> c <> "/"%char) by (intros c u H ->; apply H, (has_here "/" u)).
  assert (P : forall u, ~ has "/" u -> Strip u = u). { induction u as [|c u IH]; intros H; [reflexivity|]. rewrite Strip_letter by (eapply NO, H). f_equal. apply IH. intros E. apply H, has_cons, E. }
  assert (A : forall u, ~ has nl u -> afterLine u = None). { induction u as [|c u IH]; intros H; [reflexivity|]. cbn [afterLine]. destruct (Ascii.eqb_spec c newline) as [->|N]; [exfalso; apply H, (has_here nl u)|]. apply IH. intros E. apply H, has_cons, E. }
  intros HS HT HN. induction s as [|c s IH].
  - cbn [append]. rewrite Strip_eq. cbn [afterComment]. rewrite !Ascii.eqb_refl, (A _ HN). f_equal. rewrite Strip_eq. destruct t as [|c t]; [reflexivity|]. replace (afterComment (String "/" (String c t))) with (if Ascii.eqb c "*" then afterBlock t else None).
    2: { cbn [afterComment]. rewrite Ascii.eqb_refl. pose proof (NO _ _ HT) as N. apply Ascii.eqb_neq in N. rewrite N. reflexivity. }
    replace (if Ascii.eqb c "*" then afterBlock t else None) with (@None string); [f_equal; apply P, HT|]. destruct (Ascii.eqb c "*"); [|reflexivity]. assert (HT' : ~ has "/" t) by (intros E; apply HT, has_cons, E). clear - HT' NO. induction t as [|a [|b t] IH]; try reflexivity.
    cbn [afterBlock]. assert (HT2 : ~ has "/" (String b t)) by (intros E; apply HT', has_cons, E). pose proof (NO _ _ HT2) as N. apply Ascii.eqb_neq in N. rewrite N, andb_false_r. apply IH, HT2.
  - cbn [append]. rewrite Strip_letter by (eapply NO, HS). f_equal. apply IH. intros E. apply HS, has_cons, E.
Qed.
Example C75_last_example : Strip "{""a"":1} // the end" = "{""a"":1} // the end" /\ Strip ("{""a"":1} // the end" ++ nl) = "{""a"":1} ". Proof. split; reflexivity. Qed.
