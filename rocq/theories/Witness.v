(** Shorthands for concrete binary64 data, used only by the examples and refutations. *)
From Coq Require Import List ZArith NArith Bool.
From Coq.Floats Require Import SpecFloat.
From Verif Require Import Num FloatNum PathModel SegOps.
Import ListNotations.

(** the integer [z] as a float64 *)
Definition fz (z : Z) : T FNum := flt z 0.
(** a point with integer coordinates, and one with coordinates in thousandths *)
Definition pt (x y : Z) : Pt FNum := @mkPt FNum (fz x) (fz y).
Definition ptm (x y : Z) : Pt FNum := @mkPt FNum (flt x (-3)) (flt y (-3)).
Definition fnan : T FNum := S754_nan.
Definition mv (a b c d : Z) : seg FNum := Move (pt a b) (pt c d).
Definition ln (a b c d : Z) : seg FNum := Line (pt a b) (pt c d).

(** trigonometry stub: examples that use it never reach a trigonometric call *)
Definition noTrig : Trig FNum :=
  mkTrig FNum (fun x => x) (fun x => x) (fun x => x) (fun x _ => x) (flt 314159 (-5)).

(** curve operators that report no intersections and refuse everything else *)
Definition noCurves : CurveOps FNum :=
  mkCurveOps (fun _ => Err) (fun _ _ _ => Ok []) (fun _ _ _ => Ok []) (fun _ _ => Ok []) (fun _ _ => Err) (fun _ _ => Err).

(** Plain data of points, segments and paths, so that [vm_compute] compares lists of floats
    and never has to normalise the record [FNum] inside a type. *)
Definition dpt (p : Pt FNum) : spec_float * spec_float := (px p, py p).
Definition dseg (g : seg FNum) : nat * list (spec_float * spec_float) :=
  match g with
  | Move s e => (0, [dpt s; dpt e])
  | Line s e => (1, [dpt s; dpt e])
  | Curve s cs e ce => (2, [dpt s; dpt cs; dpt e; dpt ce])
  end.
Definition dpath (p : path FNum) := map dseg p.
Definition dres (r : res (path FNum)) : res (list (nat * list (spec_float * spec_float))) :=
  match r with Ok p => Ok (dpath p) | Err => Err | Panic => Panic | OutOfFuel => OutOfFuel end.

Lemma dpt_inj p q : dpt p = dpt q -> p = q.
Proof. destruct p, q; unfold dpt; cbn. intros E; injection E; intros; subst; reflexivity. Qed.
Lemma dseg_inj g h : dseg g = dseg h -> g = h.
Proof.
  destruct g, h; cbn [dseg]; intros E; try discriminate; injection E; intros;
    repeat match goal with H : _ = px _ |- _ => idtac end;
    f_equal; apply dpt_inj; unfold dpt; congruence.
Qed.
Lemma dpath_inj p : forall q, dpath p = dpath q -> p = q.
Proof.
  induction p as [|g r IH]; intros [|h t]; cbn; intros E; try discriminate; auto.
  injection E; intros E1 E2. apply dseg_inj in E2. f_equal; auto.
Qed.
Lemma dres_inj r : forall r', dres r = dres r' -> r = r'.
Proof. destruct r, r'; cbn; intros E; try discriminate; auto. injection E; intros E1. f_equal. apply dpath_inj; exact E1. Qed.

(** computing an equation between paths / results / points *)
Ltac byp := apply dpath_inj; vm_compute; reflexivity.
Ltac byr := apply dres_inj; vm_compute; reflexivity.
Ltac bypt := apply dpt_inj; vm_compute; reflexivity.
