(** C27, continued: putting a value under a dotted key if there is none. *)
From Coq Require Import String List ZArith Bool.
From Verif Require Import DynModel DynProofs Num Prop_C27.
Import ListNotations.
Local Open Scope string_scope.
Local Open Scope list_scope.

(** If there is nothing under the key and no part of it leads to something that is not a map, the value is put there, and other keys are not affected. *)
Theorem C27_put_if_absent_dots h a key v : nested h a -> dotFree key = true \/ lookup key (hcell h a) = None -> Get h a key = None ->
  ~ (exists p q w, splitDots key = p ++ q /\ q <> [] /\ reads h a p w /\ forall b, w <> VMap b) ->
  exists h', PutIfAbsentWithDot h a key v = (h', (v, true)) /\ Get h' a key = Some v /\
    forall key2, ~ prefix (splitDots key2) (splitDots key) -> ~ prefix (splitDots key) (splitDots key2) -> Get h' a key2 = Get h a key2.
Proof.
  intros N K G NB. unfold PutIfAbsentWithDot. rewrite G. destruct (C27_put_fails h a key v N) as [F [E|[h' E]]]; [destruct NB; apply F; exact E|].
  rewrite E. exists h'. split; [reflexivity|]. split; [eapply C27_put_get; eassumption|]. intros key2 P1 P2. eapply C27_put_others; eassumption.
Qed.
(** Otherwise the answer is the same, as if the value had been put there, but nothing is changed. *)
Theorem C27_if_absent_refuted h a key v : nested h a -> Get h a key = None ->
  (exists p q w, splitDots key = p ++ q /\ q <> [] /\ reads h a p w /\ forall b, w <> VMap b) -> PutIfAbsentWithDot h a key v = (h, (v, true)) /\ Get h a key = None.
Proof.
  intros N G B. split; [|exact G]. unfold PutIfAbsentWithDot. rewrite G. destruct (C27_put_fails h a key v N) as [F _]. rewrite (proj2 F B). reflexivity.
Qed.
Print Assumptions C27_put_if_absent_dots. Print Assumptions C27_if_absent_refuted.

(** a depth for the box, and a key below its name *)
Example C27_put_if_absent_dots_example : nested box 0 /\ lookup "size.d" (hcell box 0) = None /\ Get box 0 "size.d" = None /\
  ~ (exists p q w, splitDots "size.d" = p ++ q /\ q <> [] /\ reads box 0 p w /\ forall b, w <> VMap b) /\ Get (fst (PutIfAbsentWithDot box 0 "size.d" (VInt 5))) 0 "size.d" = Some (VInt 5).
Proof.
  split; [exact box_nested|]. split; [reflexivity|]. split; [reflexivity|]. split; [|reflexivity].
  intros (p & q & w & E & NQ & R & NM). apply box_reads in R as [[-> ->]|[[-> ->]|[-> ->]]].
  - destruct (NM 1 eq_refl).
  - discriminate E.
  - discriminate E.
Qed.
Example C27_if_absent_example : Get box 0 "name.first" = None /\ snd (PutIfAbsentWithDot box 0 "name.first" (VInt 5)) = (VInt 5, true) /\ Get (fst (PutIfAbsentWithDot box 0 "name.first" (VInt 5))) 0 "name.first" = None.
Proof. repeat split; reflexivity. Qed.
