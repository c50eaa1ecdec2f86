(** C72, continued: what counts as a list of parts, of components, of imports. *)
From Coq Require Import String Ascii List ZArith Bool.
From Verif Require Import Num DynModel DynProofs Components Docs DocsProofs Prop_C72 Prop_C92.
Import ListNotations.
Local Open Scope string_scope.
Local Open Scope list_scope.

Lemma Forall2_weaken {A B} (P Q : A -> B -> Prop) l r : (forall a b, P a b -> Q a b) -> Forall2 P l r -> Forall2 Q l r.
Proof. intros H F. induction F; constructor; auto. Qed.
(** the value of the key is a list of maps and of nothing else *)
Definition isList (m : obj) (k : string) (l : list obj) : Prop := lookup k m = Some (JArr (map JObj l)).
Lemma allObjs_map l : allObjs (map JObj l) = Some l.
Proof. induction l as [|o l IH]; [reflexivity|]. cbn [map allObjs]. rewrite IH. reflexivity. Qed.
Lemma allObjs_inv l : forall os, allObjs l = Some os -> l = map JObj os.
Proof.
  induction l as [|[] l IH]; cbn [allObjs]; intros os H; try discriminate; [injection H as <-; reflexivity|]. destruct (allObjs l) as [r|]; [|discriminate]. injection H as <-. rewrite (IH r eq_refl). reflexivity.
Qed.
Lemma objs_list m k l : splitDots k = [k] -> isList m k l -> objs m k = l.
Proof. intros S H. unfold objs. rewrite jget_plain, H, allObjs_map by exact S. reflexivity. Qed.
Lemma objs_none m k : splitDots k = [k] -> (forall l, ~ isList m k l) -> objs m k = [].
Proof.
  intros S H. unfold objs. rewrite jget_plain by exact S. unfold isList in H. destruct (lookup k m) as [[]|]; try reflexivity. destruct (allObjs l) as [os|] eqn:E; [|reflexivity].
  exfalso. apply allObjs_inv in E. subst l. apply (H os). reflexivity.
Qed.

(** A document has a part for each map in its list of parts, in that order, and a part an element for each map in its list of components; anything else in such a place, a single map or a
    list with something in it that is not a map, stands for no parts, no components and no imports at all. *)
Theorem C72_lists show hash files svgs shuffle fuel dm D : getStr show dm "filename" = None -> Parse show hash files svgs shuffle fuel dm = Ok D ->
  (forall l, isList dm "parts" l -> Forall2 (fun m p =>
     (forall cs, isList m "components" cs -> List.length (ckids p) = List.length cs) /\ ((forall cs, ~ isList m "components" cs) -> ckids p = []) /\
     (forall s, lookup "id" m = Some (JStr s) -> s <> "" -> cid p = s)) l (d_parts D)) /\
  ((forall l, ~ isList dm "parts" l) -> d_parts D = [] /\ d_elems D = []) /\
  ((forall l, ~ isList dm "imports" l) -> d_customs D = [] /\ d_params D = []).
Proof.
  intros E H. destruct (Parse_ok _ _ _ _ _ _ _ _ E H) as (f & st & parts & -> & HI & HP & ->). cbn [d_parts d_elems d_customs d_params]. split; [|split].
  - intros l HL. rewrite (objs_list dm "parts" l eq_refl HL) in HP. apply each_Forall2 in HP. eapply Forall2_weaken; [|exact HP]. clear. intros m p. unfold create. cbn [String.eqb Ascii.eqb Bool.eqb].
    set (m1 := match jget m "type" with None => _ | Some _ => m end).
    assert (L : forall k, k <> "type" -> lookup k m1 = lookup k m). { intros k K. unfold m1. destruct (jget m "type"); [reflexivity|]. apply lookup_set_other. congruence. }
    destruct (each _ _) as [kids| | |] eqn:EK; try discriminate. cbn [bind]. intros [= <-]. cbn [ckids cid]. apply each_Forall2 in EK. repeat split.
    + intros cs HC. unfold isList in HC. rewrite <- (L "components") in HC by discriminate. rewrite (objs_list m1 "components" cs eq_refl HC) in EK. symmetry. clear - EK. induction EK; cbn [List.length]; congruence.
    + intros HC. rewrite objs_none in EK; [inversion EK; reflexivity|reflexivity|]. intros cs. unfold isList. rewrite L by discriminate. apply HC.
    + intros s HS NE. unfold idOf, mustStr, getStr. rewrite jget_plain, L, HS by (reflexivity || discriminate). destruct s; [contradiction|reflexivity].
  - intros HN. rewrite (objs_none dm "parts" eq_refl HN) in HP. injection HP as <-. split; reflexivity.
  - intros HN. rewrite (objs_none dm "imports" eq_refl HN) in HI. injection HI as <-. split; reflexivity.
Qed.
Print Assumptions C72_lists.

(** one part with two components; the imports are a single map, which is not a list *)
Definition lidDoc : obj :=
  [("imports", JObj [("path", JStr "legs")]);
   ("parts", JArr [JObj [("id", JStr "lid"); ("components", JArr [JObj [("type", JStr "draw")]; JObj [("type", JStr "gear")]])]; JObj [("components", JObj [("type", JStr "draw")])]])].
Example C72_lists_example : getStr noShow lidDoc "filename" = None /\ (exists l, isList lidDoc "parts" l) /\ (forall l, ~ isList lidDoc "imports" l) /\
  match Parse noShow hash0 (dir []) noSvg (fun l => l) 9 lidDoc with Ok D => map (fun p => (cid p, List.length (ckids p))) (d_parts D) = [("lid", 2); ("0123456789abcdef", 0)] | _ => False end.
Proof.
  split; [reflexivity|]. split; [eexists [_; _]; reflexivity|]. split; [intros l; discriminate|]. reflexivity.
Qed.
(** Finding: one stray value in a list of parts and the whole document draws nothing, without an error. *)
Theorem C72_stray_refuted : exists dm, lookup "parts" dm = Some (JArr [JObj [("id", JStr "lid")]; JStr "lid"]) /\
  forall show hash files svgs shuffle, match Parse show hash files svgs shuffle 9 dm with Ok D => d_parts D = [] | _ => False end.
Proof. exists [("parts", JArr [JObj [("id", JStr "lid")]; JStr "lid"])]. split; reflexivity. Qed.
Print Assumptions C72_stray_refuted.
