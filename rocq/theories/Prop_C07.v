(** C07: cleanup yields a well-formed path with the same drawing. *)
From Coq Require Import List ZArith Bool.
From Verif Require Import Num NumLaws FloatNum RealNum PathModel SegOps TransformsModel PathSpec PathProofs CleanupProofs Witness.
Import ListNotations.

(** Full claim: for every path the result begins with a move from the origin, is contiguous, and has no two
    moves in a row.  It is false when some segment ends at NaN ([C07_contiguous_refuted]); it holds otherwise. *)
Theorem C07_well_formed_partial : forall (N : Num), EqLaws N -> forall prec (p : path N), p <> [] ->
  Forall (fun g => isnan (px (send g)) || isnan (py (send g)) = false) p ->
  starts_with_origin_move (Cleanup prec p) /\ connected (Cleanup prec p) /\ no_double_move (Cleanup prec p).
Proof. exact @Cleanup_wf. Qed.
Print Assumptions C07_well_formed_partial.

(** The drawing: the drawn segments with non-NaN end, in order; a start may move to a point that agreed to [prec] decimals. *)
Theorem C07_same_drawing : forall (N : Num) prec (p : path N),
  Forall2 (realigned prec) (drawn (filter (fun g => negb (isnan (px (send g)) || isnan (py (send g)))) p)) (drawn (Cleanup prec p)).
Proof. exact @Cleanup_drawn. Qed.
Print Assumptions C07_same_drawing.

Theorem C07_no_nan_end : forall (N : Num) prec (p : path N),
  Forall (fun g => isnan (px (send g)) || isnan (py (send g)) = false) (drawn (Cleanup prec p)).
Proof. exact @Cleanup_drawn_clean_ends. Qed.
Print Assumptions C07_no_nan_end.

(** Cleaning twice is cleaning once. *)
Theorem C07_idempotent : forall (N : Num), EqLaws N -> forall prec (p : path N), p <> [] -> Forall nan_free_ends p ->
  Cleanup prec (Cleanup prec p) = Cleanup prec p.
Proof. exact @Cleanup_idem. Qed.
Print Assumptions C07_idempotent.

(** the law hypotheses hold of both number instances *)
Theorem C07_laws_float : EqLaws FNum. Proof. exact FNum_eq_laws. Qed.
Theorem C07_laws_exact : EqLaws RNum. Proof. exact RNum_eq_laws. Qed.
Print Assumptions C07_laws_float.
Print Assumptions C07_laws_exact.

(** Finding: a segment with NaN end is dropped but the move inserted in front of it stays, so the next segment
    does not start where the pen is. *)
Definition bad : path FNum := [mv 0 0 0 0; ln 0 0 1 0; Line (pt 5 5) (mkPt fnan (fz 0)); ln 1 0 2 0].
Theorem C07_contiguous_refuted : exists p : path FNum, p <> [] /\ ~ connected (Cleanup 3 p).
Proof.
  exists bad. split; [discriminate|]. intros H.
  assert (E : Cleanup 3 bad = [mv 0 0 0 0; ln 0 0 1 0; mv 1 0 5 5; ln 1 0 2 0]) by byp.
  rewrite E in H. cbn [connected] in H.
  repeat match goal with X : chain _ (_ :: _) |- _ => inversion X; clear X; subst end.
  match goal with X : same_place (send (mv 1 0 5 5)) _ |- _ => destruct X as [X|[X _]]; [discriminate X|vm_compute in X; discriminate X] end.
Qed.
Print Assumptions C07_contiguous_refuted.

Definition ex_path : path FNum := [ln 1 1 2 2; mv 2 2 3 3; mv 3 3 4 4; Line (ptm 4000 4000) (pt 5 5); Line (@mkPt FNum (flt 50000001 (-7)) (fz 5)) (pt 6 6); ln 8 8 9 9].
Example C07_example : ex_path <> [] /\ Forall nan_free_ends ex_path /\
  Cleanup 3 ex_path = [mv 0 0 1 1; ln 1 1 2 2; mv 2 2 4 4; ln 4 4 5 5; mv 5 5 5 5; ln 5 5 6 6; mv 6 6 8 8; ln 8 8 9 9].
Proof. split; [discriminate|]. split; [repeat constructor|byp]. Qed.
