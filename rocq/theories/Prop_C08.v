(** C08: dedup removes only redundant moves and back-and-forth pairs. *)
From Coq Require Import List ZArith Bool.
From Verif Require Import Num NumLaws FloatNum PathModel DrawModel SegOps TransformsModel PathSpec PathProofs TextProofs CleanupProofs DedupProofs Witness.
Import ListNotations.

(** Full claim: Dedup never panics, and its strokes are the input's after deleting adjacent pairs "stroke, same stroke
    backwards" ([reduces]), with ends at NaN dropped and starts realigned by the final cleanup.
    Panic-freedom is false for a path that does not begin with a move ([C08_panics_refuted]); every path made by
    NewPathFromSegments begins with one ([C08_constructed_paths]). *)
Theorem C08_dedup_partial : forall (N : Num) prec (p : path N),
  match p with [] => True | g :: _ => isMove g = true end ->
  exists mid q, Dedup prec p = Ok q /\ reduces prec (drawn p) (drawn mid) /\
    Forall2 (realigned prec) (drawn (filter (fun g => negb (isnan (px (send g)) || isnan (py (send g)))) mid)) (drawn q).
Proof. exact @Dedup_spec. Qed.
Print Assumptions C08_dedup_partial.

(** consequences of [reduces] spelled out: an in-order selection of the input's strokes, removed two at a time *)
Theorem C08_selection : forall (N : Num) n (a b : list (seg N)), reduces n a b -> sublist b a.
Proof. exact @reduces_sublist. Qed.
Theorem C08_pairs : forall (N : Num) n (a b : list (seg N)), reduces n a b -> exists k, length a = (length b + 2 * k)%nat.
Proof. exact @reduces_length. Qed.
Print Assumptions C08_selection.
Print Assumptions C08_pairs.

Theorem C08_constructed_paths : forall (N : Num) (l : list (seg N)),
  match NewPathFromSegments l with [] => True | g :: _ => isMove g = true end.
Proof. exact @NPFS_head_move. Qed.
Print Assumptions C08_constructed_paths.

(** the result is well formed *)
Theorem C08_well_formed : forall (N : Num), EqLaws N -> forall prec (p q : path N),
  match p with [] => True | g :: _ => isMove g = true end -> p <> [] -> Forall nan_free_ends p -> Dedup prec p = Ok q ->
  starts_with_origin_move q /\ connected q /\ no_double_move q /\ Forall nan_free_ends q.
Proof. exact @Dedup_wf. Qed.
Print Assumptions C08_well_formed.

(** Finding: without a leading move the stack of kept segments can run empty and the next access panics. *)
Theorem C08_panics_refuted : exists p : path FNum, connected p /\ Dedup 3 p = Panic.
Proof.
  exists [ln 0 0 1 0; ln 1 0 0 0; ln 0 0 5 5]. split; [|byr].
  repeat (constructor; [left; reflexivity|]). constructor.
Qed.
Print Assumptions C08_panics_refuted.

Definition ex_path : path FNum := [mv 0 0 0 0; ln 0 0 1 0; ln 1 0 2 0; ln 2 0 1 0; ln 1 0 0 0; mv 0 0 0 0; ln 0 0 7 7].
Example C08_example : Dedup 3 ex_path = Ok [mv 0 0 0 0; ln 0 0 7 7] /\
  reduces 3 (drawn ex_path) [ln 0 0 7 7] /\ Forall nan_free_ends ex_path.
Proof.
  split; [byr|]. split; [|repeat constructor].
  eapply (red_step _ _ [ln 0 0 1 0] (ln 1 0 2 0) (ln 2 0 1 0) [ln 1 0 0 0; ln 0 0 7 7]); [reflexivity|cbn; repeat split|].
  eapply (red_step _ _ [] (ln 0 0 1 0) (ln 1 0 0 0) [ln 0 0 7 7]); [reflexivity|cbn; repeat split|]. apply red_refl.
Qed.
