(** C12: closing a path makes the end meet the start. *)
From Coq Require Import List ZArith Bool.
From Verif Require Import Num NumLaws FloatNum PathModel DrawModel SegOps TransformsModel PathSpec PathProofs TextProofs CleanupProofs DedupProofs ReorderProofs JoinProofs JoinProofs2 JoinChain Prop_C11 Witness.
Import ListNotations.

(** Full claim: with ClosePath, the result ends where its first stroke starts.  False in general
    ([C12_closes_refuted]).  Proved: the closing step makes the last stroke end exactly where the first starts, keeping all strokes in between, whenever there
    are at least two strokes and the two outer ones agree to the operators' precision, are lines that intersect, or are two curves. *)
Theorem C12_closes_partial : forall (N : Num) (co : CurveOps N) (dop : Z) roomy (a : seg N) mid z,
  (EqualsPrecision (send z) (sstart a) dop = true \/
   match z, a with
   | Line s1 e1, Line s2 e2 => LineIntersection s1 e1 s2 e2 dop <> None
   | Curve _ _ _ _, Curve _ _ _ _ => True
   | _, _ => False
   end) ->
  exists a' z', closeStep co dop roomy (a :: mid ++ [z]) = Ok (a' :: mid ++ [z']) /\ send z' = sstart a'.
Proof. exact @closeStep_closes. Qed.
Print Assumptions C12_closes_partial.

(** Finding: three sides of a rectangle stay open: the two outer lines are parallel, so nothing is added
    (whatever the curve operators do). *)
Definition open_path : path FNum := [mv 0 0 0 0; ln 0 0 10 0; ln 10 0 10 5; ln 10 5 3 5].
Theorem C12_closes_refuted : forall co : CurveOps FNum, exists g r, connected open_path /\
  JoinT co 3 100 true true 3 open_path = Ok (mv 0 0 0 0 :: g :: r) /\
  ~ same_place (send (last r g)) (sstart g).
Proof.
  intros co. exists (ln 0 0 10 0), [ln 10 0 10 5; ln 10 5 3 5].
  split; [repeat (constructor; [left; reflexivity|]); constructor|]. split; [byr|].
  intros [X|[X _]]; [discriminate X|vm_compute in X; discriminate X].
Qed.
Print Assumptions C12_closes_refuted.

(** two outer lines that intersect when extended *)
Example C12_example : 
  LineIntersection (pt 10 5) (pt 2 3) (pt 4 0) (pt 10 0) 3 <> None /\
  closeStep noCurves 3 true [ln 4 0 10 0; ln 10 0 10 5; ln 10 5 2 3] = Ok [ln (-10) 0 10 0; ln 10 0 10 5; ln 10 5 (-10) 0].
Proof.
  split; [|byr].
  assert (E : match LineIntersection (pt 10 5) (pt 2 3) (pt 4 0) (pt 10 0) 3 with None => false | Some _ => true end = true) by (vm_compute; reflexivity).
  intros X. rewrite X in E. discriminate E.
Qed.

(** The whole transform, when everything drawn is curves: a closed result of two or more strokes is contiguous and ends exactly where it starts, for
    every number system and whatever the curve operators do. *)
Theorem C12_curves : forall (N : Num) (co : CurveOps N) (dop : Z), OrdLaws N -> forall roomy prec (p q : path N) fuel,
  match p with [] => True | g :: _ => isMove g = true end -> Forall nan_free_ends p -> Forall isCurve (drawn p) ->
  JoinT co dop fuel roomy true prec p = Ok q ->
  connected q /\ ((length (drawn q) <= 1)%nat \/ exists a r, drawn q = a :: r /\ send (last r a) = sstart a).
Proof.
  intros N co dop O roomy prec p q fuel Hh Hn Hc E.
  destruct (JoinT_connected co dop isCurve ltac:(intros []; cbn; auto) ltac:(intros []; cbn; auto) curves_start (curves_join co dop) O fuel roomy true prec p q) as (C & K & H); auto.
Qed.
Print Assumptions C12_curves.
Example C12_curves_example : Forall nan_free_ends ex_curves /\ Forall isCurve (drawn ex_curves) /\
  JoinT noCurves 3 6 true true 3 ex_curves = Ok [mv 0 0 0 0; cur 0 0 1 2 3 2 5 0; cur 5 0 7 2 8 2 0 0].
Proof. split; [repeat constructor|]. split; [repeat constructor|byr]. Qed.
