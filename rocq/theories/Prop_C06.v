(** C06: splitting a contiguous path on moves loses nothing. *)
From Coq Require Import List ZArith.
From Verif Require Import Num FloatNum PathModel DrawModel PathSpec PathProofs Witness.
Import ListNotations.

(** [piece q]: a move from the origin followed by drawn segments only, contiguous *)
Theorem C06_split_loses_nothing : forall (N : Num) (p : path N), connected p ->
  concat (map drawn (SplitPathOnMove p)) = drawn p /\
  Forall (fun q => piece q /\ drawn q <> []) (SplitPathOnMove p).
Proof. exact @SplitPathOnMove_spec. Qed.
Print Assumptions C06_split_loses_nothing.

Definition ex_path : path FNum := [mv 0 0 1 1; ln 1 1 2 2; mv 2 2 9 9; mv 9 9 5 5; ln 5 5 6 6; ln 6 6 7 7; mv 7 7 0 0].
Example C06_example : connected ex_path /\ length (SplitPathOnMove ex_path) = 2%nat.
Proof. split; [|vm_compute; reflexivity]. repeat (constructor; [left; reflexivity|]). constructor. Qed.
