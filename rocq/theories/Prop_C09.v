(** C09: reversing a path reverses the drawing; twice is the identity on it. *)
From Coq Require Import List ZArith.
From Verif Require Import Num NumLaws FloatNum PathModel DrawModel SegOps TransformsModel PathSpec PathProofs DedupProofs Witness.
Import ListNotations.

Theorem C09_reverses : forall (N : Num), EqLaws N -> forall p : path N, connected p ->
  drawn (PathReverse p) = rev (map flip (drawn p)).
Proof. exact @PathReverse_drawn. Qed.
Print Assumptions C09_reverses.

Theorem C09_twice : forall (N : Num), EqLaws N -> forall p : path N, connected p ->
  drawn (PathReverse (PathReverse p)) = drawn p.
Proof. exact @PathReverse_twice. Qed.
Print Assumptions C09_twice.

(** the result is itself contiguous, from the origin *)
Theorem C09_contiguous : forall (N : Num) (p : path N), chain origin (PathReverse p).
Proof. exact @PathReverse_connected. Qed.
Print Assumptions C09_contiguous.

Definition ex_path : path FNum := [mv 0 0 1 1; ln 1 1 2 2; mv 2 2 5 5; Curve (pt 5 5) (pt 6 5) (pt 7 7) (pt 7 6)].
Example C09_example : connected ex_path /\
  drawn (PathReverse ex_path) = [Curve (pt 7 7) (pt 7 6) (pt 5 5) (pt 6 5); ln 2 2 1 1].
Proof. split; [|byp]. repeat (constructor; [left; reflexivity|]). constructor. Qed.
