(** C97: the id of an element that has none is made of what it says, and of nothing else. *)
From Coq Require Import String Ascii List NArith Bool Lia Permutation.
From Verif Require Import Num DynModel Comments Json JsonProofs Prop_C96.
Import ListNotations.
Local Open Scope string_scope.
Local Open Scope N_scope.

Section Claims.
Context (T : NumText).
Notation jv := (jv T).
(** no id is given: there is none, or the empty text *)
Definition anonymous (m : list (string * jv)) : Prop := forall v, In ("id", v) m -> v = JText "".
Definition plain (m : list (string * jv)) : Prop := goMap m /\ texts characters m /\ finite m.

Lemma lookup_In k (v : jv) m : lookup k m = Some v -> In (k, v) m.
Proof. induction m as [|[k' w] m IH]; cbn [lookup]; [discriminate|]. destruct (String.eqb_spec k k') as [->|]; [intros [= ->]; left; reflexivity|]. intros H. right. apply IH, H. Qed.
Lemma In_lookup k (v : jv) m : NoDup (map fst m) -> In (k, v) m -> lookup k m = Some v.
Proof.
  induction m as [|[k' w] m IH]; cbn [lookup map fst]; intros ND H; [destruct H|]. inversion ND as [|? ? N1 N2]; subst. destruct H as [[= -> ->]|H]; [rewrite String.eqb_refl; reflexivity|].
  destruct (String.eqb_spec k k') as [->|]; [exfalso; apply N1; apply (in_map fst _ _ H)|apply IH; assumption].
Qed.
Lemma lookup_None k (m : list (string * jv)) : lookup k m = None -> forall v, ~ In (k, v) m.
Proof. induction m as [|[k' w] m IH]; cbn [lookup]; [intros _ v []|]. destruct (String.eqb_spec k k') as [->|N]; [discriminate|]. intros H v [[= -> ->]|HI]; [congruence|]. exact (IH H v HI). Qed.
Lemma anonymous_id md5 show m : anonymous m -> elementId T md5 show m = md5 (ToJSON T m).
Proof. intros H. unfold elementId. destruct (lookup "id" m) as [v|] eqn:E; [|reflexivity]. apply lookup_In, H in E. subst v. reflexivity. Qed.
Lemma same_entries m m' k v : same T (JMap m) (JMap m') -> In (k, v) m -> exists w, In (k, w) m' /\ same T v w.
Proof.
  intros S. inversion S as [| | | | |? q ? HF HP]; subst. clear S. intros HI. assert (G : exists w, In (k, w) q /\ same T v w).
  { clear HP. induction HF as [|[a va] [b vb] l q [H1 H2] HF IH]; [destruct HI|]. cbn in H1, H2. destruct HI as [[= -> ->]|HI]; [exists vb; split; [left; rewrite H1; reflexivity|exact H2]|]. destruct (IH HI) as (w & Hw & Sw). exists w. split; [right; exact Hw|exact Sw]. }
  destruct G as (w & Hw & Sw). exists w. split; [apply (Permutation_in _ HP Hw)|exact Sw].
Qed.

(** A given id is the id. *)
Theorem C97_given md5 show m s : goMap m -> In ("id", JText s) m -> s <> "" -> elementId T md5 show m = s.
Proof. intros G HI NE. unfold elementId. rewrite (In_lookup "id" (JText s) m); [destruct s; [congruence|reflexivity]|apply G; constructor|exact HI]. Qed.
(** A given id that is not a text is kept as the text that Go shows for it, if there is one. *)
Theorem C97_shown md5 show m v : goMap m -> In ("id", v) m -> (forall s, v <> JText s) -> show v <> "" -> elementId T md5 show m = show v.
Proof. intros G HI NT NE. unfold elementId. rewrite (In_lookup "id" v m); [|apply G; constructor|exact HI]. destruct v; try (destruct (show _); [congruence|reflexivity]). exfalso. eapply NT. reflexivity. Qed.
(** The id does not depend on the order in which the entries of the maps are visited: it is the same each time the element is made.  (The id that is given must not be a list or a map.) *)
Theorem C97_order md5 show m m' : plain m -> same T (JMap m) (JMap m') -> (forall v, In ("id", v) m -> forall l, v <> JList l /\ forall l, v <> JMap l) -> elementId T md5 show m = elementId T md5 show m'.
Proof.
  intros (G & HT & HF) S HI. assert (HN : nice T (JMap m)) by (apply nice_map_spec; auto). pose proof (same_nice T _ _ HN S) as HN'. destruct (C96_order T m m' G HT HF S) as [E _].
  unfold elementId. rewrite E. destruct (lookup "id" m) as [v|] eqn:L.
  - apply lookup_In in L. destruct (same_entries _ _ _ _ S L) as (w & Hw & Sw). assert (v = w) as ->. { destruct v; inversion Sw; subst; try reflexivity; exfalso; [apply (proj1 (HI _ L l)); reflexivity|apply (proj2 (HI _ L []) l); reflexivity]. }
    inversion HN' as [| | | | |? ND _ _]; subst. rewrite (In_lookup _ _ _ ND Hw). reflexivity.
  - destruct (lookup "id" m') as [w|] eqn:L'; [|reflexivity]. exfalso. apply lookup_In in L'. apply (same_sym T _ HN) in S. destruct (same_entries _ _ _ _ S L') as (v & Hv & _). exact (lookup_None _ _ L _ Hv).
Qed.
(** Two elements without an id that get the same one say the same, unless two texts have the same md5 sum. *)
Theorem C97_content (Laws : NumTextLaws T) md5 show m m' : plain m -> plain m' -> anonymous m -> anonymous m' -> (md5 (ToJSON T m) = md5 (ToJSON T m') -> ToJSON T m = ToJSON T m') ->
  elementId T md5 show m = elementId T md5 show m' -> same T (JMap m) (JMap m').
Proof.
  intros (G & HT & HF) (G' & HT' & HF') A A' MD E. rewrite !anonymous_id in E by assumption. apply MD in E. assert (HN : nice T (JMap m)) by (apply nice_map_spec; auto). assert (HN' : nice T (JMap m')) by (apply nice_map_spec; auto).
  unfold ToJSON in E. rewrite (nice_writable T _ HN), (nice_writable T _ HN') in E. pose proof (same_ordered T (JMap m)) as S. pose proof (same_ordered T (JMap m')) as S'.
  set (room := N.max (deep T (ordered T (JMap m))) (deep T (ordered T (JMap m')))).
  destruct (write_back T Laws true _ (same_nice T _ _ HN S) 0%nat room "" ltac:(unfold room; lia) I) as (f1 & F1). destruct (write_back T Laws true _ (same_nice T _ _ HN' S') 0%nat room "" ltac:(unfold room; lia) I) as (f2 & F2).
  specialize (F1 (Nat.max f1 f2) ltac:(lia)). specialize (F2 (Nat.max f1 f2) ltac:(lia)). rewrite E in F1. rewrite F1 in F2. assert (E2 : ordered T (JMap m) = ordered T (JMap m')) by congruence. rewrite E2 in S. apply (same_trans T _ _ _ S). apply (same_sym T _ HN'), S'.
Qed.
(** So it is with whatever is read. *)
Theorem C97_parsed (Laws : NumTextLaws T) md5 show s s' m m' : ParseJSON T s = Ok (Some m) -> ParseJSON T s' = Ok (Some m') -> anonymous m -> anonymous m' -> (md5 (ToJSON T m) = md5 (ToJSON T m') -> ToJSON T m = ToJSON T m') ->
  elementId T md5 show m = elementId T md5 show m' -> same T (JMap m) (JMap m').
Proof.
  intros P P' A A' MD. assert (Q : plain m) by (destruct (C96_stable T Laws _ _ P) as (H1 & H2 & H3 & _); repeat split; assumption || apply H2). assert (Q' : plain m') by (destruct (C96_stable T Laws _ _ P') as (H1 & H2 & H3 & _); repeat split; assumption || apply H2). apply (C97_content Laws); assumption.
Qed.
(** The elements inside of a list or a map have other ids than it: they say less.  (Again, unless two texts have the same md5 sum.) *)
Theorem C97_parent (Laws : NumTextLaws T) md5 show m c : plain m -> plain c -> anonymous m -> anonymous c -> (md5 (ToJSON T m) = md5 (ToJSON T c) -> ToJSON T m = ToJSON T c) ->
  (exists k l, In (k, JList l) m /\ In (JMap c) l) -> elementId T md5 show m <> elementId T md5 show c.
Proof.
  intros P Pc A Ac MD (k & l & H1 & H2) E. pose proof (C97_content Laws md5 show m c P Pc A Ac MD E) as S. apply same_deep in S.
  assert (D1 : deep T (JMap c) + 1 <= deep T (JList l)). { cbn [deep]. enough (deep T (JMap c) <= fold_right N.max 0 (map (deep T) l)) by (cbn [deep] in *; lia). clear - H2. induction l as [|x l IH]; [destruct H2|]. cbn [map fold_right]. destruct H2 as [->|H2]; [lia|]. specialize (IH H2). lia. }
  assert (D2 : deep T (JList l) <= deep T (JMap m)). { cbn [deep]. enough (deep T (JList l) <= fold_right N.max 0 (map (fun e => deep T (snd e)) m)) by (cbn [deep] in *; lia). clear - H1. induction m as [|x m IH]; [destruct H1|]. cbn [map fold_right]. destruct H1 as [->|H1]; [cbn [snd]; lia|]. specialize (IH H1). lia. }
  lia.
Qed.
End Claims.
Arguments anonymous {T}. Arguments plain {T}.

Definition showNone (v : jv Lit) : string := "<nil>".
Lemma sample_plain : plain sample. Proof. destruct sample_good as (H1 & H2 & H3 & _). split; [exact H1|split; assumption]. Qed.
Lemma sample_anonymous : anonymous sample. Proof. intros v H. repeat (destruct H as [[=]|H]); destruct H. Qed.
Example C97_given_example : goMap (T := Lit) [("type", JText "draw"); ("id", JText "front")] /\ forall md5, elementId Lit md5 showNone [("type", JText "draw"); ("id", JText "front")] = "front".
Proof. split; [apply check_goMap; reflexivity|intros; reflexivity]. Qed.
Example C97_order_example : plain sample /\ same Lit (JMap sample) (JMap (rev sample)) /\ forall md5, elementId Lit md5 showNone (rev sample) = md5 (ToJSON Lit sample).
Proof. split; [exact sample_plain|]. split; [apply C96_order_example|]. intros md5. reflexivity. Qed.
(** another md5 than the real one, that does not confuse these two *)
Example C97_content_example : let m : list (string * jv Lit) := [("w", num "0")] in plain m /\ plain sample /\ anonymous m /\ anonymous sample /\ elementId Lit (fun s => s) showNone m <> elementId Lit (fun s => s) showNone sample.
Proof.
  split; [good|]. split; [exact sample_plain|]. split; [intros v H; repeat (destruct H as [[=]|H]); destruct H|]. split; [exact sample_anonymous|]. discriminate.
Qed.
Example C97_parsed_example : exists m m', ParseJSON Lit "{""w"":0}" = Ok (Some m) /\ ParseJSON Lit "{""w"":0 /* same */ }" = Ok (Some m') /\ elementId Lit (fun s => s) showNone m = elementId Lit (fun s => s) showNone m'.
Proof. do 2 eexists. repeat split. Qed.
Example C97_parent_example : let c : list (string * jv Lit) := [("w", num "0")] in let m := [("components", JList [JMap c])] in plain m /\ plain c /\ anonymous m /\ anonymous c /\ elementId Lit (fun s => s) showNone m <> elementId Lit (fun s => s) showNone c.
Proof. split; [good|]. split; [good|]. split; [intros v H; repeat (destruct H as [[=]|H]); destruct H|]. split; [intros v H; repeat (destruct H as [[=]|H]); destruct H|]. discriminate. Qed.

(** Ids are not unique: two elements that say the same have the same id, also in one list of components.  (So only the last of them is found by it.) *)
Theorem C97_unique_refuted : exists (m : list (string * jv Lit)) l c d, ParseJSON Lit "{""components"":[{""type"":""draw""},{""type"":""draw""}]}" = Ok (Some m) /\ In ("components", JList l) m /\ l = [JMap c; JMap d] /\ forall md5, elementId Lit md5 showNone c = elementId Lit md5 showNone d.
Proof. do 4 eexists. split; [reflexivity|]. split; [left; reflexivity|]. split; reflexivity. Qed.
(** All elements with a number that is not finite have the same id, whatever md5 is; and so have two that differ in bytes that are no characters. *)
Theorem C97_other_refuted :
  (forall m m' : list (string * jv Lit), anonymous m -> anonymous m' -> ~ finite m -> ~ finite m' -> forall md5, elementId Lit md5 showNone m = elementId Lit md5 showNone m') /\
  (exists m m' : list (string * jv Lit), goMap m /\ goMap m' /\ finite m /\ finite m' /\ ~ same Lit (JMap m) (JMap m') /\ forall md5, elementId Lit md5 showNone m = elementId Lit md5 showNone m').
Proof.
  split.
  - intros m m' A A' F F' md5. rewrite !anonymous_id by assumption. rewrite (proj2 (proj2 (C96_refuse Lit m) F)), (proj2 (proj2 (C96_refuse Lit m') F')). reflexivity.
  - exists [("a", JText (String "255" ""))], [("a", JText (String "254" ""))]. do 2 (split; [apply check_goMap; reflexivity|]). do 2 (split; [apply check_finite; reflexivity|]). split; [|intros; reflexivity].
    intros H. inversion H as [| | | | |? k m HF HP E1 E2]; subst. inversion HF as [|? b ? k' [H1 H2] HF']; subst. inversion HF'; subst. apply Permutation_length_1 in HP. subst b. cbn in H2. inversion H2.
Qed.

Example C97_shown_ex md5 : elementId Lit md5 (fun v => match v with JNum _ => "7" | _ => "?" end) [("type", JText "draw"); ("id", JBool true)] = "?".
Proof. apply (C97_shown Lit md5 (fun v => match v with JNum _ => "7" | _ => "?" end) _ (JBool true)); [apply check_goMap; reflexivity|right; left; reflexivity|discriminate|discriminate]. Qed.
