(** C13: combining paths keeps every stroke visible. *)
From Coq Require Import List ZArith Bool.
From Verif Require Import Num NumLaws FloatNum PathModel DrawModel SegOps TransformsModel PathSpec PathProofs JoinProofs2 Witness.
Import ListNotations.

(** the same number up to the sign of zero (points are created with zeros of positive sign), the same point, the same stroke *)
Definition sameNum {N : Num} (x y : T N) : Prop := y = x \/ eqb x zero = true /\ y = zero.
Definition samePt {N : Num} (a b : Pt N) : Prop := sameNum (px a) (px b) /\ sameNum (py a) (py b).
Definition drawnAs {N : Num} (a b : @stroke N) : Prop :=
  match a, b with
  | SLine s e, SLine s' e' => samePt s s' /\ samePt e e'
  | SCurve s c1 c2 e, SCurve s' c1' c2' e' => samePt s s' /\ samePt c1 c1' /\ samePt c2 c2' /\ samePt e e'
  | _, _ => False
  end.

Lemma clone_same {N : Num} (a : Pt N) : samePt a (clonePt a).
Proof. unfold samePt, sameNum, clonePt, NewPoint, norm0; cbn [px py]; split; destruct (eqb _ _) eqn:E; auto. Qed.
Lemma same_refl {N : Num} (a : Pt N) : samePt a a. Proof. split; left; reflexivity. Qed.
Lemma clone_strokes {N : Num} (p : path N) : forall c c', samePt c c' -> Forall2 drawnAs (strokes c p) (strokes c' (clonePath p)).
Proof.
  induction p as [|g r IH]; intros c c' H; [constructor|]. destruct g; cbn [clonePath map cloneSeg strokes].
  - apply IH. apply clone_same.
  - constructor; [split; [auto|apply clone_same]|]. apply IH. apply clone_same.
  - constructor; [repeat split; try apply H; apply clone_same|]. apply IH. apply clone_same.
Qed.
Lemma Forall2_concat {A B} (R : A -> B -> Prop) l l' : Forall2 (Forall2 R) l l' -> Forall2 R (concat l) (concat l').
Proof. induction 1; cbn; [constructor|]. apply Forall2_app; auto. Qed.

(** [strokes c p] is what an SVG viewer draws for the text of [p] with its pen at [c].
    Full claim: the joined path draws the strokes of every argument.  False when a later path does not begin with a move
    ([C13_refuted]) and when there is no path at all (panic).  Proved: if every later path is empty or begins with a
    move, the joined drawing is the first path's drawing followed by each later path's own drawing, in order. *)
Theorem C13_join_keeps_strokes_partial : forall (N : Num) (p : path N) (ps : list (path N)) (c : Pt N),
  Forall (fun q => q = [] \/ exists s e r, q = Move s e :: r) ps ->
  exists q, JoinPaths (p :: ps) = Ok q /\ Forall2 drawnAs (strokes c p ++ concat (map (strokes origin) ps)) (strokes c q).
Proof.
  intros N p ps c H. eexists. split; [reflexivity|].
  assert (G : forall base, strokes c (fold_left simpleJoinOne ps base) = strokes c base ++ concat (map (fun x => strokes origin (clonePath x)) ps)).
  { induction H as [|x r Hx Hr IH]; intros base; cbn [fold_left map concat]; [symmetry; apply app_nil_r|]. rewrite IH. destruct Hx as [->|Hx]; [reflexivity|].
    rewrite (simpleJoinOne_strokes c base x Hx), <- app_assoc. reflexivity. }
  rewrite G. apply Forall2_app.
  - apply clone_strokes. apply same_refl.
  - apply Forall2_concat. clear. induction ps as [|x r IH]; constructor; auto. apply clone_strokes. apply same_refl.
Qed.
Print Assumptions C13_join_keeps_strokes_partial.

(** the pen semantics agrees with the segments' own points on a contiguous path *)
Theorem C13_pen_semantics : forall (N : Num) (l : path N) (c : Pt N), chain c l ->
  Forall2 same_stroke (strokes c l) (concat (map stroke_of l)).
Proof. exact @strokes_chain. Qed.
Print Assumptions C13_pen_semantics.

(** Finding: a later path that starts with a line loses it: a move is added to the line's END, so the line is
    drawn from its end to its end. *)
Definition q1 : path FNum := [mv 0 0 0 0; ln 0 0 1 0].
Definition q2 : path FNum := [ln 5 5 9 9].
Theorem C13_refuted : exists q : path FNum, JoinPaths [q1; q2] = Ok q /\
  strokes origin q = [SLine (pt 0 0) (pt 1 0); SLine (pt 9 9) (pt 9 9)] /\ drawn q2 = [ln 5 5 9 9].
Proof. exists [mv 0 0 0 0; ln 0 0 1 0; mv 1 0 9 9; ln 5 5 9 9]. split; [byr|]. split; reflexivity. Qed.
Print Assumptions C13_refuted.

Theorem C13_no_paths_panics : forall N : Num, @JoinPaths N [] = Panic.
Proof. reflexivity. Qed.
Print Assumptions C13_no_paths_panics.

Example C13_example : JoinPaths [q1; [mv 0 0 5 5; ln 5 5 9 9]] = Ok [mv 0 0 0 0; ln 0 0 1 0; mv 1 0 5 5; mv 0 0 5 5; ln 5 5 9 9].
Proof. byr. Qed.
