(** C99: the questions asked of a map agree on what is under a key, and several keys are removed as if one by one. *)
From Coq Require Import String Ascii List ZArith Bool Lia.
From Coq.Floats Require Import SpecFloat.
From Verif Require Import Num FloatNum DynModel DynRead DynProofs DynAsk Prop_C27.
Import ListNotations.
Local Open Scope string_scope.
Local Open Scope list_scope.

(** What is under a key: the entry of that name, or else what is found by going from map to map along the parts of the key *)
Inductive along (h : heap) : list (string * val) -> list string -> val -> Prop :=
| along_end l k v : lookup k l = Some v -> along h l [k] v
| along_map l k b k2 ks v : lookup k l = Some (VMap b) -> along h (hcell h b) (k2 :: ks) v -> along h l (k :: k2 :: ks) v
| along_text l k m k2 s : lookup k l = Some (VStrMap m) -> lookup k2 m = Some s -> along h l [k; k2] (VStr s).
Definition under (h : heap) (a : nat) (key : string) (v : val) : Prop :=
  lookup key (hcell h a) = Some v \/ (lookup key (hcell h a) = None /\ along h (hcell h a) (splitDots key) v).

Lemma lookup_texts k m : lookup k (map (fun p => (fst p, VStr (snd p))) m) = option_map VStr (lookup k m).
Proof. induction m as [|[k0 s0] m IH]; [reflexivity|]. cbn [map lookup fst snd]. destruct (String.eqb k k0); [reflexivity|exact IH]. Qed.
Lemma walk_step h l k k2 ks : walk h l (k :: k2 :: ks) = match lookup k l with Some v => match entries h v with Some l' => walk h l' (k2 :: ks) | None => None end | None => None end.
Proof. reflexivity. Qed.
Lemma walk_along h ks : forall l v, walk h l ks = Some v <-> along h l ks v.
Proof.
  induction ks as [|k ks IH]; intros l v.
  - split; [discriminate|inversion 1].
  - destruct ks as [|k2 ks]; [cbn [walk]|rewrite walk_step].
    + split; [intros E; constructor; exact E|inversion 1; assumption].
    + destruct (lookup k l) as [w|] eqn:L.
      * destruct w; cbn [entries]; try (split; [discriminate|inversion 1; congruence]).
        -- rewrite IH. split; [intros A; eapply along_map; eassumption|]. inversion 1; subst; congruence.
        -- destruct ks as [|k3 ks].
           ++ cbn [walk]. rewrite lookup_texts. split.
              ** destruct (lookup k2 l0) as [s|] eqn:L2; [|discriminate]. cbn [option_map]. intros [= <-]. eapply along_text; eassumption.
              ** inversion 1; subst; [congruence|]. match goal with H : lookup k l = Some (VStrMap ?m), H2 : lookup k2 ?m = Some ?s |- _ => rewrite L in H; injection H as <-; rewrite H2 end. reflexivity.
           ++ rewrite walk_step, lookup_texts. split; [|inversion 1; congruence]. destruct (lookup k2 l0); cbn [option_map entries]; discriminate.
      * split; [discriminate|inversion 1; congruence].
Qed.
Lemma Get_under h a key v : Get h a key = Some v <-> under h a key v.
Proof.
  unfold Get, under. destruct (lookup key (hcell h a)) as [w|] eqn:L.
  - split; [intros [= <-]; left; reflexivity|]. intros [E|[E _]]; congruence.
  - rewrite <- walk_along. split.
    + intros E. right. split; [reflexivity|]. destruct (splitDots key) as [|k [|k2 ks]] eqn:S; [exact E|discriminate|exact E].
    + intros [E|[_ E]]; [discriminate|]. destruct (splitDots key) as [|k [|k2 ks]] eqn:S; [exact E| |exact E].
      pose proof (splitDots_one _ _ S). subst k. cbn [walk] in E. congruence.
Qed.
Lemma Get_none h a key : Get h a key = None <-> forall v, ~ under h a key v.
Proof.
  destruct (Get h a key) as [w|] eqn:E.
  - apply Get_under in E. split; [discriminate|]. intros H. exfalso. exact (H w E).
  - split; [|reflexivity]. intros _ v U. apply Get_under in U. congruence.
Qed.

(** Contains, Exists and ContainsAll say whether there is something, Must gives it. *)
Theorem C99_there h a :
  (forall key, Contains h a key = true <-> exists v, under h a key v) /\
  (forall key, Exists h a key = Contains h a key) /\
  (forall keys, ContainsAll h a keys = true <-> forall key, In key keys -> exists v, under h a key v) /\
  (forall key def v, under h a key v -> Must h a key def = v) /\
  (forall key def, (forall v, ~ under h a key v) -> Must h a key def = def).
Proof.
  assert (C : forall key, Contains h a key = true <-> exists v, under h a key v).
  { intros key. unfold Contains. destruct (Get h a key) as [w|] eqn:E.
    - apply Get_under in E. split; [exists w; exact E|reflexivity].
    - split; [discriminate|]. intros [v U]. apply Get_under in U. congruence. }
  split; [exact C|]. split; [reflexivity|]. split; [|split].
  - induction keys as [|k keys IH]; cbn [ContainsAll]; [split; [intros _ key []|reflexivity]|].
    pose proof (C k) as Ck. destruct (Contains h a k).
    + rewrite IH. split; [intros H key [<-|K]; [apply Ck; reflexivity|apply H; exact K]|]. intros H key K. apply H. right. exact K.
    + split; [discriminate|]. intros H. apply Ck. apply H. left. reflexivity.
  - intros key def v U. apply Get_under in U. unfold Must. rewrite U. reflexivity.
  - intros key def U. apply Get_none in U. unfold Must. rewrite U. reflexivity.
Qed.
Print Assumptions C99_there.

(** A text is there when what is under the key is written as a text that is not empty; MustString gives it, and the default in every other case. *)
Theorem C99_text show h a key :
  (forall s, GetString show h a key = (s, true) <-> exists v, under h a key v /\ s <> "" /\ ((exists t, v = VStr t /\ s = t) \/ ((forall t, v <> VStr t) /\ s = show v))) /\
  (ContainsString show h a key = true <-> exists s, GetString show h a key = (s, true)) /\
  (forall s def, GetString show h a key = (s, true) -> MustString show h a key def = s) /\
  (forall def, ContainsString show h a key = false -> MustString show h a key def = def).
Proof.
  assert (TX : forall v s, ToText show v = s <-> (exists t, v = VStr t /\ s = t) \/ ((forall t, v <> VStr t) /\ s = show v)).
  { intros v s. unfold ToText. destruct v; split; intros H; try (right; split; [discriminate|congruence]); try (destruct H as [(t0 & [=] & _)|[_ H]]; congruence).
    - left. eexists. split; [reflexivity|congruence].
    - destruct H as [(t & [= <-] & ->)|[H _]]; [reflexivity|]. exfalso. exact (H _ eq_refl). }
  split; [|split; [|split]].
  - intros s. unfold GetString. destruct (Get h a key) as [v|] eqn:E.
    + pose proof (proj1 (Get_under _ _ _ _) E) as U. destruct (Nat.eqb (String.length (ToText show v)) 0) eqn:Z.
      * split; [discriminate|]. intros (w & U2 & NE & T). apply Get_under in U2. rewrite E in U2. injection U2 as <-. apply TX in T. rewrite T in Z. destruct s; [congruence|discriminate].
      * split.
        -- intros [= <-]. exists v. split; [exact U|]. split; [intros E0; rewrite E0 in Z; discriminate|]. apply TX. reflexivity.
        -- intros (w & U2 & NE & T). apply Get_under in U2. rewrite E in U2. injection U2 as <-. apply TX in T. rewrite T. reflexivity.
    + split; [discriminate|]. intros (v & U & _). apply Get_under in U. congruence.
  - unfold ContainsString. destruct (GetString show h a key) as [s ok]. cbn [snd]. split; [intros ->; exists s; reflexivity|]. intros (t & [= _ ->]). reflexivity.
  - intros s def E. unfold MustString. rewrite E. reflexivity.
  - intros def. unfold ContainsString, MustString. destruct (GetString show h a key) as [s ok]. cbn [snd]. intros ->. reflexivity.
Qed.
Print Assumptions C99_text.

(** Whole numbers, numbers and truth values: what is under the key, converted, or else the default; a missing whole number is shown as -1. *)
Theorem C99_else {N : Num} (ofInt : Z -> T N) (ofFloat : spec_float -> T N) h a key :
  (forall v, under h a key v ->
    (forall z, ToInt64 v = Some z -> GetInt64 h a key = (z, true) /\ forall def, MustInt h a key def = z) /\
    (ToInt64 v = None -> GetInt64 h a key = ((-1)%Z, false) /\ forall def, MustInt h a key def = def) /\
    (forall b def, DynRead.ToBool v = Some b -> MustBool h a key def = b) /\ (forall def, DynRead.ToBool v = None -> MustBool h a key def = def) /\
    (forall x def, ToFloat ofInt ofFloat v = Some x -> MustFloat64 h a ofInt ofFloat key def = x) /\ (forall def, ToFloat ofInt ofFloat v = None -> MustFloat64 h a ofInt ofFloat key def = def) /\
    (ContainsDynMap h a key = true <-> (exists b, v = VMap b) \/ exists l, v = VStrMap l)) /\
  ((forall v, ~ under h a key v) -> GetInt64 h a key = ((-1)%Z, false) /\ (forall def, MustInt h a key def = def) /\ (forall def, MustBool h a key def = def) /\
    (forall def, MustFloat64 h a ofInt ofFloat key def = def) /\ ContainsDynMap h a key = false).
Proof.
  split.
  - intros v U. apply Get_under in U. unfold MustInt, GetInt64, MustBool, GetBool, MustFloat64, ContainsDynMap, GetDynMap. rewrite U.
    repeat split; intros; try match goal with H : _ v = _ |- _ => rewrite H; reflexivity end.
    + destruct v; try discriminate; [left|right]; eauto.
    + destruct H as [[b ->]|[l ->]]; reflexivity.
  - intros U. apply Get_none in U. unfold MustInt, GetInt64, MustBool, GetBool, MustFloat64, ContainsDynMap, GetDynMap. rewrite U. repeat split.
Qed.
Print Assumptions C99_else.

(** Removing keys without dots: none of them is there any more, and what is under any other key, dotted or not, is what it was, as long as its first part is none of
    them and the map is not inside itself. *)
Definition outside (h : heap) (a : nat) : Prop := forall p, reach h a p a -> p = [].
Lemma Remove_free h a k : dotFree k = true -> exists l, (forall b, hcell (fst (Remove h a k)) b = if Nat.eqb a b then l else hcell h b) /\
  lookup k l = None /\ forall k2, k2 <> k -> lookup k2 l = lookup k2 (hcell h a).
Proof.
  intros D. unfold Remove. destruct (lookup k (hcell h a)) as [v|] eqn:L.
  - exists (del k (hcell h a)). split; [reflexivity|]. split; [apply lookup_del_same|]. intros k2 NK. apply lookup_del_other. congruence.
  - apply splitDots_free in D. rewrite D. exists (hcell h a). split; [|auto]. intros b. cbn [fst]. destruct (Nat.eqb a b) eqn:Q; [apply Nat.eqb_eq in Q; subst; reflexivity|reflexivity].
Qed.
Lemma RemoveAll_free keys : forall h a, Forall (fun k => dotFree k = true) keys -> exists l, (forall b, hcell (RemoveAll h a keys) b = if Nat.eqb a b then l else hcell h b) /\
  (forall k, In k keys -> lookup k l = None) /\ forall k, ~ In k keys -> lookup k l = lookup k (hcell h a).
Proof.
  induction keys as [|k keys IH]; intros h a F; cbn [RemoveAll].
  - exists (hcell h a). split; [|split; [intros k []|auto]]. intros b. destruct (Nat.eqb a b) eqn:Q; [apply Nat.eqb_eq in Q; subst; reflexivity|reflexivity].
  - inversion F as [|? ? F1 F2]; subst. destruct (Remove_free h a k F1) as (l1 & C1 & N1 & O1). destruct (IH (fst (Remove h a k)) a F2) as (l2 & C2 & N2 & O2).
    exists l2. split; [|split].
    + intros b. rewrite C2, C1. destruct (Nat.eqb a b); reflexivity.
    + intros k2 I2. destruct (in_dec string_dec k2 keys) as [I|NI]; [apply N2; exact I|]. rewrite O2 by exact NI. rewrite C1, Nat.eqb_refl. destruct I2 as [->|I2]; [exact N1|contradiction].
    + intros k2 NI. rewrite O2 by (intros I; apply NI; right; exact I). rewrite C1, Nat.eqb_refl. apply O1. intros ->. apply NI. left. reflexivity.
Qed.
Lemma walk_texts h h' ks m : walk h' (map (fun p => (fst p, VStr (snd p))) m) ks = walk h (map (fun p => (fst p, VStr (snd p))) m) ks.
Proof. destruct ks as [|k [|k2 ks]]; [reflexivity|reflexivity|]. rewrite !walk_step, lookup_texts. destruct (lookup k m); reflexivity. Qed.
Lemma walk_frame h h' a ks : (forall b, b <> a -> hcell h' b = hcell h b) -> forall b, (forall q, ~ reach h b q a) -> walk h' (hcell h' b) ks = walk h (hcell h b) ks.
Proof.
  intros FR. induction ks as [|k ks IH]; intros b NR; [reflexivity|].
  assert (NB : b <> a) by (intros ->; exact (NR [] (reach_nil h a))). rewrite (FR b NB). destruct ks as [|k2 ks]; [reflexivity|]. rewrite !walk_step.
  destruct (lookup k (hcell h b)) as [w|] eqn:L; [|reflexivity]. destruct w; cbn [entries]; try reflexivity.
  - apply (IH a0). intros q R. apply (NR (k :: q)). apply reach_cons. exists a0. auto.
  - apply (walk_texts h h' (k2 :: ks)).
Qed.
Theorem C99_removed h a keys : Forall (fun k => dotFree k = true) keys ->
  (forall k, In k keys -> Contains (RemoveAll h a keys) a k = false) /\
  (forall k, dotFree k = true -> ~ In k keys -> Get (RemoveAll h a keys) a k = Get h a k) /\
  (outside h a -> forall k p q, splitDots k = p :: q -> ~ In p keys -> Get (RemoveAll h a keys) a k = Get h a k) /\
  (forall b, b <> a -> hcell (RemoveAll h a keys) b = hcell h b).
Proof.
  intros F. destruct (RemoveAll_free keys h a F) as (l & C & N & O). split; [|split; [|split]].
  - intros k I. unfold Contains, Get. rewrite C, Nat.eqb_refl, (N k I). rewrite Forall_forall in F. rewrite (proj1 (splitDots_free k) (F k I)). reflexivity.
  - intros k D NI. unfold Get. rewrite C, Nat.eqb_refl, (O k NI), (proj1 (splitDots_free k) D). reflexivity.
  - intros OUT k p q S NI. unfold Get. rewrite C, Nat.eqb_refl.
    assert (NK : ~ In k keys). { intros I. rewrite Forall_forall in F. pose proof (proj1 (splitDots_free k) (F k I)) as S2. rewrite S2 in S. injection S as <- <-. contradiction. }
    rewrite (O k NK). destruct (lookup k (hcell h a)); [reflexivity|]. rewrite S. destruct q as [|q0 q]; [reflexivity|]. rewrite !walk_step, (O p NI).
    destruct (lookup p (hcell h a)) as [w|] eqn:L; [|reflexivity]. destruct w; cbn [entries]; try reflexivity.
    + apply (walk_frame h (RemoveAll h a keys) a (q0 :: q)).
      * intros b NB. rewrite C. destruct (Nat.eqb a b) eqn:Q; [apply Nat.eqb_eq in Q; congruence|reflexivity].
      * intros r R. assert (E : p :: r = []) by (apply OUT; apply reach_cons; exists a0; auto). discriminate.
    + apply (walk_texts h _ (q0 :: q)).
  - intros b NB. rewrite C. destruct (Nat.eqb a b) eqn:Q; [apply Nat.eqb_eq in Q; congruence|reflexivity].
Qed.
Print Assumptions C99_removed.

(** A map as in a design: a text, an empty text, a number written as a text, a map and a map of texts *)
Definition drawer : heap := mkHeap 2 (fun c => match c with
  | 0 => [("type", VStr "box"); ("note", VStr ""); ("depth", VStr "12"); ("open", VStr "Yes"); ("size", VMap 1); ("style", VStrMap [("fill", "none")])]
  | 1 => [("w", VInt 7)] | _ => [] end).
Definition shown99 (v : val) : string := match v with VInt _ => "7" | _ => "" end.
Example C99_there_example : under drawer 0 "size.w" (VInt 7) /\ under drawer 0 "style.fill" (VStr "none") /\ ContainsAll drawer 0 ["type"; "size.w"; "style.fill"] = true /\
  (forall v, ~ under drawer 0 "size.h" v) /\ ContainsAll drawer 0 ["type"; "size.h"] = false.
Proof. split; [apply Get_under; reflexivity|]. split; [apply Get_under; reflexivity|]. split; [reflexivity|]. split; [apply Get_none; reflexivity|reflexivity]. Qed.
(** an empty text is there, and no text *)
Example C99_text_example : GetString shown99 drawer 0 "size.w" = ("7", true) /\ Contains drawer 0 "note" = true /\ ContainsString shown99 drawer 0 "note" = false /\ MustString shown99 drawer 0 "note" "none" = "none".
Proof. repeat split. Qed.
Example C99_else_example : under drawer 0 "depth" (VStr "12") /\ ToInt64 (VStr "12") = Some 12%Z /\ DynRead.ToBool (VStr "12") = None /\ under drawer 0 "open" (VStr "Yes") /\ DynRead.ToBool (VStr "Yes") = Some true /\
  MustInt drawer 0 "open" 5 = 5%Z /\ ContainsDynMap drawer 0 "style" = true /\ ContainsDynMap drawer 0 "type" = false.
Proof. split; [apply Get_under; reflexivity|]. split; [reflexivity|]. split; [reflexivity|]. split; [apply Get_under; reflexivity|]. repeat split. Qed.
Example C99_removed_example : Forall (fun k => dotFree k = true) ["type"; "note"; "lid"] /\ outside drawer 0 /\ Get (RemoveAll drawer 0 ["type"; "note"; "lid"]) 0 "size.w" = Some (VInt 7) /\
  Contains (RemoveAll drawer 0 ["type"; "note"; "lid"]) 0 "type" = false /\ Contains (RemoveAll drawer 0 ["type"; "note"; "lid"]) 0 "depth" = true.
Proof.
  split; [repeat constructor|]. split; [|repeat split].
  intros [|k p] R; [reflexivity|]. exfalso. apply reach_cons in R. destruct R as (c & L & R). cbn in L.
  repeat match type of L with (if ?b then _ else _) = _ => destruct b; [try discriminate L|] end; try discriminate L.
  injection L as <-. destruct p as [|k2 p]; [destruct R as [[_ E]|R]; [discriminate|exact (reads_nil _ _ _ R)]|]. apply reach_cons in R. destruct R as (c & L & _). cbn in L.
  repeat match type of L with (if ?b then _ else _) = _ => destruct b; [try discriminate L|] end; discriminate L.
Qed.

(** Finding: a dotted key that is there twice, under its whole name and along its parts, is still there after it has been removed. *)
Theorem C99_removed_refuted : exists h a key, Contains (RemoveAll h a [key]) a key = true /\ under h a key (VInt 3) /\ outside h a.
Proof.
  exists both, 0, "size.w". split; [reflexivity|]. split; [left; reflexivity|].
  intros [|k p] R; [reflexivity|]. exfalso. apply reach_cons in R. destruct R as (c & L & R). cbn in L.
  repeat match type of L with (if ?b then _ else _) = _ => destruct b; [try discriminate L|] end; try discriminate L.
  injection L as <-. destruct p as [|k2 p]; [destruct R as [[_ E]|R]; [discriminate|exact (reads_nil _ _ _ R)]|]. apply reach_cons in R. destruct R as (c & L & _). cbn in L.
  repeat match type of L with (if ?b then _ else _) = _ => destruct b; [try discriminate L|] end; discriminate L.
Qed.
Print Assumptions C99_removed_refuted.
