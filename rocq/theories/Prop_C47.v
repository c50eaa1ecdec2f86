(** C47: SVG transform attributes. *)
From Coq Require Import String List ZArith Bool.
From Verif Require Import Num FloatNum PathModel DrawModel SegOps TransformsModel SvgParse GeomTransforms SvgElement PathSpec Witness.
Import ListNotations.
Local Open Scope string_scope.
Local Open Scope list_scope.

(** an element without its transform, and without those of all elements in it *)
Fixpoint dropAttr (k : string) (l : list (string * string)) : list (string * string) :=
  match l with [] => [] | (k', v) :: r => if String.eqb k k' then dropAttr k r else (k', v) :: dropAttr k r end.
Fixpoint untransformed (e : element) : element :=
  match e with Elem n a ch => Elem n (dropAttr "transform" a) (map untransformed ch) end.

Lemma attrOf_drop k k' l : k <> k' -> attrOf k (dropAttr k' l) = attrOf k l.
Proof.
  intros N. induction l as [|[k0 v] r IH]; [reflexivity|]. cbn [dropAttr attrOf]. destruct (String.eqb_spec k' k0) as [->|].
  - rewrite IH. destruct (String.eqb_spec k k0); [congruence|reflexivity].
  - cbn [attrOf]. rewrite IH. reflexivity.
Qed.
Lemma attrOf_dropped k l : attrOf k (dropAttr k l) = None.
Proof. induction l as [|[k0 v] r IH]; [reflexivity|]. cbn [dropAttr]. destruct (String.eqb k k0) eqn:E; [exact IH|]. cbn [attrOf]. rewrite E. exact IH. Qed.
Lemma transformLoop_none {N : Num} ts (p : path N) : transformLoop ts p = Ok p.
Proof. induction ts as [|t r IH]; [reflexivity|]. cbn [transformLoop]. change (findTransform "t") with (@None (string * string)). exact IH. Qed.

(** Finding: whatever the transform attributes of an element and of the elements in it, its path is the one without them (so is the error or panic). *)
Theorem C47_ignored_refuted : forall (N : Num) (e : element), @ElementToPath N (untransformed e) = ElementToPath e.
Proof.
  intros N. fix IH 1. intros [name attrs ch]. cbn [untransformed ElementToPath].
  assert (G : forall k, k <> "transform" -> attrOf k (dropAttr "transform" attrs) = attrOf k attrs) by (intros; apply attrOf_drop; auto).
  assert (GF : forall k, k <> "transform" -> @getFloat N (dropAttr "transform" attrs) k = getFloat attrs k) by (intros; unfold getFloat; rewrite G by auto; reflexivity).
  assert (GS : mustString (dropAttr "transform" attrs) "d" = mustString attrs "d") by (unfold mustString; rewrite G by discriminate; reflexivity).
  assert (CH : (fix all (l : list element) : res (list (path N)) :=
                  match l with [] => Ok [] | c :: r => bind (ElementToPath c) (fun p => bind (all r) (fun ps => Ok (p :: ps))) end) (map untransformed ch) =
               (fix all (l : list element) : res (list (path N)) :=
                  match l with [] => Ok [] | c :: r => bind (ElementToPath c) (fun p => bind (all r) (fun ps => Ok (p :: ps))) end) ch).
  { induction ch as [|c r IHr]; [reflexivity|]. cbn [map]. rewrite (IH c), IHr. reflexivity. }
  rewrite !GF by discriminate. rewrite GS, CH. unfold mustString at 2. rewrite attrOf_dropped.
  match goal with |- bind ?a _ = bind ?b _ => change b with a; destruct a as [p| | |]; try reflexivity end. cbn [bind].
  destruct (mustString attrs "transform"); [reflexivity|]. rewrite transformLoop_none. reflexivity.
Qed.
Print Assumptions C47_ignored_refuted.

(** a rectangle moved 10 to the right: the path is the one at the origin *)
Definition moved : element := Elem "rect" [("x", "0"); ("y", "0"); ("width", "4"); ("height", "3"); ("transform", "matrix(1,0,0,1,10,0)")] [].
Definition atOrigin : path FNum := [mv 0 0 0 0; ln 0 0 4 0; ln 4 0 4 3; ln 4 3 0 3; ln 0 3 0 0].
Definition toTheRight : path FNum := [mv 0 0 10 0; ln 10 0 14 0; ln 14 0 14 3; ln 14 3 10 3; ln 10 3 10 0].
Theorem C47_matrix_refuted : ElementToPath moved = Ok atOrigin /\ dpath (MatrixT (@mkMatrix FNum (fz 1) (fz 0) (fz 0) (fz 1) (fz 10) (fz 0)) atOrigin) = dpath toTheRight /\
  drawn atOrigin <> drawn toTheRight.
Proof. split; [byr|]. split; [vm_compute; reflexivity|]. intros H. apply (f_equal dpath) in H. vm_compute in H. discriminate H. Qed.
Print Assumptions C47_matrix_refuted.

(** The pattern itself, applied to the pieces it is meant for: a single transform, the last one, and signed or decimal numbers would still not match. *)
Theorem C47_pattern_refuted : map findTransform (splitClose "matrix(1,0,0,1,10,0) scale(2)") = [Some ("matrix", "1,0,0,1,10,0"); None] /\
  map findTransform (splitClose "matrix(1,0,0,1,10,0)") = [None] /\ findTransform "rotate(-45" = None /\ findTransform "scale(1.5" = None.
Proof. repeat split. Qed.
Print Assumptions C47_pattern_refuted.
