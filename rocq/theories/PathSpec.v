(** Specification vocabulary for paths, independent of the model's helpers. *)
From Coq Require Import List ZArith Bool.
From Verif Require Import Num PathModel.
Import ListNotations.

Section Spec.
Context {N : Num}.

(** "the same place": the identical point, or coordinates that compare [==] *)
Definition same_place (a b : Pt N) : Prop :=
  a = b \/ (eqb (px a) (px b) = true /\ eqb (py a) (py b) = true).

(** the pen's rest position before anything is drawn *)
Definition origin : Pt N := NewPoint zero zero.

(** [chain c l]: walking [l] from place [c], each segment starts where the pen is *)
Inductive chain : Pt N -> list (seg N) -> Prop :=
| chain_nil c : chain c []
| chain_cons c g l : same_place c (sstart g) -> chain (send g) l -> chain c (g :: l).

(** contiguous regardless of where the first segment starts *)
Definition connected (l : list (seg N)) : Prop :=
  match l with [] => True | g :: _ => chain (sstart g) l end.

(** a drawn (visible) segment *)
Definition visible (g : seg N) : Prop :=
  match g with Move _ _ => False | Line _ _ => True | Curve _ _ _ _ => True end.

(** the visible segments of a path in order *)
Fixpoint drawn (l : list (seg N)) : list (seg N) :=
  match l with
  | [] => []
  | Move _ _ :: r => drawn r
  | g :: r => g :: drawn r
  end.

(** the place the pen ends at *)
Fixpoint pen (c : Pt N) (l : list (seg N)) : Pt N :=
  match l with [] => c | g :: r => pen (send g) r end.

(** the same segment drawn in the opposite direction *)
Definition flip (g : seg N) : seg N :=
  match g with
  | Move s e => Move e s
  | Line s e => Line e s
  | Curve s cs e ce => Curve e ce s cs
  end.

(** equal up to the start point *)
Definition same_but_start (g h : seg N) : Prop :=
  match g, h with
  | Move _ e, Move _ e' => e = e'
  | Line _ e, Line _ e' => e = e'
  | Curve _ cs e ce, Curve _ cs' e' ce' => cs = cs' /\ e = e' /\ ce = ce'
  | _, _ => False
  end.

(** no two consecutive moves *)
Fixpoint no_double_move (l : list (seg N)) : Prop :=
  match l with
  | [] => True
  | g :: r => match g, r with
              | Move _ _, Move _ _ :: _ => False
              | _, _ => True
              end /\ no_double_move r
  end.

(** [l] begins with a move starting at the origin (up to the sign of zero) *)
Definition starts_with_origin_move (l : list (seg N)) : Prop :=
  exists s e r, l = Move s e :: r /\
    (s = zeroPt \/ (eqb (px s) zero = true /\ eqb (py s) zero = true)).

End Spec.
