(** Proofs about the array helpers (C46), MultiTransform (C48) and pen positions (C01). *)
From Coq Require Import String List ZArith NArith Bool Lia.
From Verif Require Import Num NumLaws PathModel DrawModel PathSpec PathProofs.
Import ListNotations.

Lemma existsb_mid {A} (f : A -> bool) (a b : list A) x : existsb f (x :: a ++ b) = existsb f (a ++ x :: b).
Proof.
  cbn [existsb]. rewrite !existsb_app. cbn [existsb]. destruct (f x), (existsb f a); reflexivity.
Qed.

(** ** C46 *)
Lemma StringArrayDeDup_loop_snoc a : forall keys x,
  StringArrayDeDup_loop keys (a ++ [x]) =
  (StringArrayDeDup_loop keys a ++ (if existsb (String.eqb x) (keys ++ a) then [] else [x]))%list.
Proof.
  induction a as [|y r IH]; intros keys x; cbn [app StringArrayDeDup_loop].
  - rewrite app_nil_r. destruct (existsb _ keys); reflexivity.
  - destruct (existsb (String.eqb y) keys) eqn:E.
    + rewrite IH. f_equal. rewrite !existsb_app. cbn [existsb].
      destruct (String.eqb_spec x y) as [->|Hn]; cbn [orb]; [rewrite E; reflexivity|reflexivity].
    + rewrite IH. cbn [app]. f_equal. f_equal. rewrite existsb_mid. reflexivity.
Qed.

Lemma StringArrayDeDup_snoc a x :
  StringArrayDeDup (a ++ [x]) =
  (StringArrayDeDup a ++ (if in_dec string_dec x a then [] else [x]))%list.
Proof.
  unfold StringArrayDeDup. rewrite StringArrayDeDup_loop_snoc. f_equal. cbn [app].
  destruct (in_dec string_dec x a) as [Hi|Hn].
  - assert (E : existsb (String.eqb x) a = true).
    { apply existsb_exists. exists x. split; auto. apply String.eqb_refl. }
    rewrite E. reflexivity.
  - destruct (existsb (String.eqb x) a) eqn:E; auto. exfalso. apply existsb_exists in E as (y & Hy & Ey).
    apply String.eqb_eq in Ey. subst. contradiction.
Qed.

Section F64.
Context {N : Num}.
Notation F := (T N).

Lemma F64DeDup_loop_snoc (L : EqLaws N) a : forall keys (x : F),
  Float64ArrayDeDup_loop keys (a ++ [x]) =
  (Float64ArrayDeDup_loop keys a ++ (if existsb (fun y => eqb y x) (keys ++ a) then [] else [x]))%list.
Proof.
  induction a as [|y r IH]; intros keys x; cbn [app Float64ArrayDeDup_loop].
  - rewrite app_nil_r. destruct (existsb _ keys); reflexivity.
  - destruct (existsb (fun k => eqb k y) keys) eqn:E.
    + rewrite IH. f_equal. rewrite !existsb_app. cbn [existsb].
      destruct (eqb y x) eqn:Ey; cbn [orb]; [|reflexivity].
      apply existsb_exists in E as (k & Hk & Ek).
      assert (E' : existsb (fun y0 => eqb y0 x) keys = true).
      { apply existsb_exists. exists k. split; auto. eapply (eqb_trans L); eauto. }
      rewrite E'. reflexivity.
    + rewrite IH. cbn [app]. f_equal. f_equal. rewrite existsb_mid. reflexivity.
Qed.

Lemma F64DeDup_snoc (L : EqLaws N) a (x : F) :
  Float64ArrayDeDup (a ++ [x]) =
  (Float64ArrayDeDup a ++ (if existsb (fun y => eqb y x) a then [] else [x]))%list.
Proof. unfold Float64ArrayDeDup. rewrite (F64DeDup_loop_snoc L). reflexivity. Qed.

(** ** C01: where the pen is after each call *)
(** the position a call asks for, given the position [c] before it *)
Definition rel (c d : Pt N) : Pt N := NewPoint (add (px c) (px d)) (add (py c) (py d)).
Definition asked (c : Pt N) (o : drawop) : option (Pt N) :=
  match o with
  | OMoveTo p | OLineTo p | OSmoothCurveTo _ p | OQCurveTo _ p | OCurveTo _ _ p | ORoundedCornerTo p _ _ => Some p
  | ORelMoveTo d | ORelLineTo d | ORelSmoothCurveTo _ d | ORelQCurveTo _ d | ORelCurveTo _ _ d
  | ORelRoundedCornerTo d _ _ => Some (rel c d)
  | OHLineTo x => Some (NewPoint x (py c))
  | OVLineTo y => Some (NewPoint (px c) y)
  | ORelHLineTo x => Some (rel c (NewPoint x zero))
  | ORelVLineTo y => Some (rel c (NewPoint zero y))
  | OAddSegment g => Some (send g)
  | OAddSegments _ | OLineByAngle _ _ | OCircle _ | ORect _ _ => None
  end.

Lemma pen_snoc c l (g : seg N) : pen c (l ++ [g]) = send g.
Proof. rewrite pen_app. reflexivity. Qed.

Lemma drawstep_asked tr (d : path N) o p : asked (pen origin d) o = Some p -> pen origin (drawstep tr d o) = p.
Proof.
  rewrite <- CurrentPosition_pen.
  destruct o; cbn [asked drawstep]; intros E; inversion E; subst; try apply pen_snoc; try discriminate.
  unfold AddSegment. destruct d as [|a r].
  - destruct (isMove g); rewrite pen_snoc; destruct (ptEquals _ _); rewrite ?send_setStart; reflexivity.
  - rewrite pen_snoc; destruct (ptEquals _ _); rewrite ?send_setStart; reflexivity.
Qed.
End F64.

(** ** C48 *)
Section Multi.
Context {P : Type}.
(** the transforms succeed one after the other *)
Inductive runs : P -> list (P -> res P) -> P -> Prop :=
| runs_nil p : runs p [] p
| runs_cons p t ts p1 q : t p = Ok p1 -> runs p1 ts q -> runs p (t :: ts) q.

Lemma MultiTransform_runs ts : forall (p q : P), MultiTransform p ts = Ok q <-> runs p ts q.
Proof.
  induction ts as [|t r IH]; intros p q; cbn [MultiTransform].
  - split; [intros E; inversion E; constructor|intros H; inversion H; reflexivity].
  - split.
    + destruct (t p) as [p1| | |] eqn:E; cbn [bind]; try discriminate. intros H. econstructor; [exact E|]. apply IH; exact H.
    + intros H. inversion H as [|? ? ? p1 ? E Hr]; subst. rewrite E. cbn [bind]. apply IH; exact Hr.
Qed.

Lemma MultiTransform_stops ts1 t ts2 (p q : P) : runs p ts1 q -> (forall x, t q <> Ok x) ->
  MultiTransform p (ts1 ++ t :: ts2) = t q.
Proof.
  intros H Ht. induction H as [p|p t1 ts p1 q E H IH]; cbn [app MultiTransform].
  - destruct (t p) eqn:E; cbn [bind]; auto. exfalso. apply (Ht a). reflexivity.
  - rewrite E. cbn [bind]. apply IH. exact Ht.
Qed.
End Multi.
