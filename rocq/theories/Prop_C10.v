(** C10: reordering never loses a stroke. *)
From Coq Require Import List ZArith Permutation Bool.
From Verif Require Import Num NumLaws FloatNum PathModel DrawModel SegOps TransformsModel PathSpec PathProofs TextProofs CleanupProofs DedupProofs ReorderProofs Witness.
Import ListNotations.

(** [reorderPaths] is the transform without its final de-duplication: it succeeds, and draws the sub-paths of the input, each
    exactly once, in some order, each in one of its two directions. *)
Theorem C10_reorder : forall (N : Num), EqLaws N -> forall prec (p : path N), connected p ->
  exists r, reorderPaths prec p = Ok r /\
  exists groups ds, Permutation (map drawn (SplitPathOnMove p)) groups /\
    Forall2 (fun a d => d = a \/ d = rev (map flip a)) groups ds /\ drawn r = concat ds.
Proof. exact @reorderPaths_spec. Qed.
Print Assumptions C10_reorder.

(** with C06, nothing of the input is left out of the groups *)
Theorem C10_groups_are_all : forall (N : Num) (p : path N), connected p ->
  concat (map drawn (SplitPathOnMove p)) = drawn p.
Proof. exact (fun N p H => proj1 (@SplitPathOnMove_spec N p H)). Qed.
Print Assumptions C10_groups_are_all.

(** the whole transform, including the final Dedup *)
Theorem C10_transform : forall (N : Num), EqLaws N -> forall prec (p : path N), connected p ->
  match p with [] => True | g :: _ => isMove g = true end ->
  exists r, Reorder prec p = Ok r /\
  ((length (SplitPathOnMove p) <= 1)%nat /\ r = p \/
   exists out mid, regrouped (map drawn (SplitPathOnMove p)) out /\ reduces prec out (drawn mid) /\
     Forall2 (realigned prec) (drawn (filter (fun g => negb (isnan (px (send g)) || isnan (py (send g)))) mid)) (drawn r)).
Proof. exact @Reorder_spec. Qed.
Print Assumptions C10_transform.

Definition ex_path : path FNum := [mv 0 0 0 0; ln 0 0 1 0; mv 1 0 9 9; ln 9 9 8 8; mv 8 8 2 5; ln 2 5 1 0].
Example C10_example : connected ex_path /\
  reorderPaths 3 ex_path = Ok [mv 0 0 0 0; ln 0 0 1 0; mv 0 0 1 0; ln 1 0 2 5; mv 2 5 0 0; mv 0 0 9 9; ln 9 9 8 8] /\
  Reorder 3 ex_path = Ok [mv 0 0 0 0; ln 0 0 1 0; ln 1 0 2 5; mv 2 5 9 9; ln 9 9 8 8].
Proof.
  split; [repeat (constructor; [left; reflexivity|]); constructor|]. split; byr.
Qed.
