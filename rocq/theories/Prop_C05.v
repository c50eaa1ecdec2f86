(** C05: path constructors and trimming keep exactly the drawn segments. *)
From Coq Require Import List ZArith.
From Verif Require Import Num FloatNum PathModel PathSpec PathProofs Witness.
Import ListNotations.

Theorem C05_NewPathFromSegments_drawn : forall (N : Num) (l : list (seg N)), drawn (NewPathFromSegments l) = drawn l.
Proof. exact @NPFS_drawn. Qed.
Theorem C05_NewPathFromSegmentsWithoutMove_drawn : forall (N : Num) (l : list (seg N)),
  drawn (NewPathFromSegmentsWithoutMove l) = drawn l.
Proof. exact @NPFSWM_drawn. Qed.
Theorem C05_HeadMove_drawn : forall (N : Num) (l : list (seg N)), drawn (HeadMove l) = drawn l.
Proof. exact @HeadMove_drawn. Qed.
Theorem C05_FixHeadMove_drawn : forall (N : Num) (l : list (seg N)), drawn (FixHeadMove l) = drawn l.
Proof. exact @FixHeadMove_drawn. Qed.
Theorem C05_TrimTailMove_drawn : forall (N : Num) (l : list (seg N)), drawn (TrimTailMove l) = drawn l.
Proof. exact @TrimTailMove_drawn. Qed.
Theorem C05_TrimMove_drawn : forall (N : Num) (l : list (seg N)), drawn (TrimMove l) = drawn l.
Proof. exact @TrimMove_drawn. Qed.

(** what is trimmed is exactly a run of moves at each end *)
Theorem C05_TrimMove_pieces : forall (N : Num) (l : list (seg N)), exists m1 m2, l = m1 ++ TrimMove l ++ m2 /\
  Forall (fun g => ~ visible g) m1 /\ Forall (fun g => ~ visible g) m2.
Proof. exact @TrimMove_pieces. Qed.
Theorem C05_TrimMove_ends : forall (N : Num) (l : list (seg N)), TrimMove l = [] \/
  (exists g r, TrimMove l = g :: r /\ visible g) /\ (exists i g, TrimMove l = i ++ [g] /\ visible g).
Proof. exact @TrimMove_ends. Qed.
Theorem C05_TrimMove_idempotent : forall (N : Num) (l : list (seg N)), TrimMove (TrimMove l) = TrimMove l.
Proof. exact @TrimMove_idem. Qed.
Theorem C05_starts_with_origin_move : forall (N : Num) (l : list (seg N)), l <> [] ->
  starts_with_origin_move (NewPathFromSegments l).
Proof. exact @NPFS_origin. Qed.
Print Assumptions C05_NewPathFromSegments_drawn.
Print Assumptions C05_NewPathFromSegmentsWithoutMove_drawn.
Print Assumptions C05_HeadMove_drawn.
Print Assumptions C05_FixHeadMove_drawn.
Print Assumptions C05_TrimTailMove_drawn.
Print Assumptions C05_TrimMove_drawn.
Print Assumptions C05_TrimMove_pieces.
Print Assumptions C05_TrimMove_ends.
Print Assumptions C05_TrimMove_idempotent.
Print Assumptions C05_starts_with_origin_move.

Definition ex_path : path FNum := [mv 4 4 1 1; mv 1 1 2 2; ln 2 2 3 3; mv 3 3 5 5; ln 5 5 6 6; mv 6 6 7 7].
Example C05_example : TrimMove ex_path = [ln 2 2 3 3; mv 3 3 5 5; ln 5 5 6 6] /\ ex_path <> [] /\
  NewPathFromSegments ex_path = [mv 0 0 1 1; mv 1 1 2 2; ln 2 2 3 3; mv 3 3 5 5; ln 5 5 6 6; mv 6 6 7 7] /\
  NewPathFromSegments [ln 2 2 3 3] = [mv 0 0 2 2; ln 2 2 3 3].
Proof. split; [byp|]. split; [discriminate|]. split; byp. Qed.
