(** C27, continued: maps of texts. *)
From Coq Require Import String Ascii List ZArith Bool.
From Verif Require Import DynModel DynProofs Num Prop_C27.
Import ListNotations.
Local Open Scope string_scope.
Local Open Scope list_scope.

(** A map of texts to texts under a key is handed out as a new map with the same texts under the same keys; the other maps stay what they are. *)
Theorem C27_text_map h a key l : Get h a key = Some (VStrMap l) ->
  exists b h', GetDynMap h a key = Some (b, h') /\ b = hnext h /\ (forall c, c <> b -> hcell h' c = hcell h c) /\
    (forall k s, lookup k l = Some s -> Get h' b k = Some (VStr s)) /\
    (forall k, lookup k l = None -> dotFree k = true -> Get h' b k = None).
Proof.
  intros E. unfold GetDynMap. rewrite E. cbn [toDyn alloc]. eexists. eexists. split; [reflexivity|]. split; [reflexivity|].
  assert (L : forall k, lookup k (map (fun p => (fst p, VStr (snd p))) l) = option_map VStr (lookup k l)).
  { intros k. clear. induction l as [|[k0 s0] l IH]; [reflexivity|]. cbn [map lookup fst snd]. destruct (String.eqb k k0) eqn:Q; [reflexivity|exact IH]. }
  split; [|split].
  - intros c NC. assert (Q : Nat.eqb (hnext h) c = false) by (apply Nat.eqb_neq; congruence). cbn. rewrite !Q. reflexivity.
  - intros k s K. unfold Get, store. cbn [hcell]. rewrite Nat.eqb_refl, L, K. reflexivity.
  - intros k K D. unfold Get, store. cbn [hcell]. rewrite Nat.eqb_refl, L, K. cbn [option_map]. rewrite (proj1 (splitDots_free k) D). reflexivity.
Qed.
Print Assumptions C27_text_map.
Example C27_text_map_example : let h := mkHeap 1 (fun c => match c with 0 => [("style", VStrMap [("fill", "none"); ("stroke", "red")])] | _ => [] end) in
  exists b h', GetDynMap h 0 "style" = Some (b, h') /\ Get h' b "stroke" = Some (VStr "red") /\ Get h' b "width" = None /\ Get h' 0 "style.fill" = Some (VStr "none").
Proof. intros h. eexists. eexists. repeat split; reflexivity. Qed.

(** Remove returns what Get returns, whatever the maps are. *)
Theorem C27_removed h a key : snd (Remove h a key) = Get h a key.
Proof.
  unfold Remove, Get. destruct (lookup key (hcell h a)) as [v|]; [reflexivity|].
  assert (W : forall ks b, snd (removeDots h b ks) = walk h (hcell h b) ks).
  { induction ks as [|k ks IH]; intros b; [reflexivity|]. cbn [removeDots walk]. destruct ks as [|k2 r].
    - destruct (lookup k (hcell h b)); reflexivity.
    - destruct (lookup k (hcell h b)) as [v|]; [|reflexivity]. destruct v; try reflexivity. apply IH. }
  destruct (splitDots key) as [|k [|k2 r]]; [reflexivity|reflexivity|apply W].
Qed.
Print Assumptions C27_removed.
(** A text in a map of texts is returned by Remove, and stays there. *)
Theorem C27_remove_text_refuted h a k s l t : dotFree k = true -> dotFree s = true -> lookup (k ++ "." ++ s)%string (hcell h a) = None -> lookup k (hcell h a) = Some (VStrMap l) -> lookup s l = Some t ->
  Remove h a (k ++ "." ++ s)%string = (h, Some (VStr t)) /\ Get h a (k ++ "." ++ s)%string = Some (VStr t).
Proof.
  intros DK DS N K S. assert (E : splitDots (k ++ "." ++ s)%string = [k; s]).
  { apply splitDots_free in DS. clear - DK DS. assert (G : splitDots ("." ++ s)%string = ["" ; s]) by (cbn; rewrite DS; reflexivity). revert DK. induction k as [|c k IH]; [intros _; exact G|]. cbn [dotFree]. intros D. apply andb_true_iff in D as [D1 D2]. apply negb_true_iff in D1. specialize (IH D2). change ((String c k) ++ "." ++ s)%string with (String c (k ++ "." ++ s)%string). set (x := (k ++ "." ++ s)%string) in *. cbn [splitDots]. rewrite D1, IH. reflexivity. }
  assert (L : lookup s (map (fun p => (fst p, VStr (snd p))) l) = Some (VStr t)).
  { clear - S. induction l as [|[k0 s0] l IH]; [discriminate|]. cbn [map lookup fst snd] in *. destruct (String.eqb s k0); [now injection S as <-|apply IH, S]. }
  split.
  - unfold Remove. rewrite N, E. cbn [removeDots]. rewrite K. cbn [walk]. rewrite L. reflexivity.
  - unfold Get. rewrite N, E. cbn [walk]. rewrite K. cbn [entries]. exact L.
Qed.
Print Assumptions C27_remove_text_refuted.
Example C27_remove_text_example : let h := mkHeap 1 (fun c => match c with 0 => [("style", VStrMap [("fill", "none"); ("stroke", "red")])] | _ => [] end) in
  Remove h 0 "style.stroke" = (h, Some (VStr "red")) /\ Get h 0 "style.stroke" = Some (VStr "red") /\ snd (Remove h 0 "style") = Some (VStrMap [("fill", "none"); ("stroke", "red")]).
Proof. intros h. destruct (C27_remove_text_refuted h 0 "style" "stroke" [("fill", "none"); ("stroke", "red")] "red") as [H1 H2]; try reflexivity. split; [exact H1|]. split; [exact H2|]. rewrite C27_removed. reflexivity. Qed.
