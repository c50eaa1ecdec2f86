(** Padded insertion in exact arithmetic (C23). *)
From Coq Require Import List ZArith Bool Lia Reals Lra Permutation.
From Verif Require Import Num NumLaws RealNum BinPack BinPackProofs BinPackGeom.
Import ListNotations.
Local Open Scope R_scope.

(** ** specification *)
(** the same rectangle laid down turned by 90 degrees, same corner *)
Definition turn (r : rectR) : rectR := mkRect (rx r) (ry r) (rh r) (rw r).
(** at least [d] between the two rectangles along the x axis or along the y axis *)
Definition apart (d : R) (a b : rectR) : Prop :=
  exists x y w h x' y' w' h', rectIs a x y w h /\ rectIs b x' y' w' h' /\
    (x + w + d <= x' \/ x' + w' + d <= x \/ y + h + d <= y' \/ y' + h' + d <= y).
(** [a] lies in the rectangle (X,Y,W,H), at least [d] away from each of its four edges *)
Definition clear_of_edges (d X Y W H : R) (a : rectR) : Prop :=
  exists x y w h, rectIs a x y w h /\ X + d <= x /\ x + w + d <= X + W /\ Y + d <= y /\ y + h + d <= Y + H.

Lemma disjoint_apart x y w h x' y' w' h' : 0 < w -> 0 < h -> 0 < w' -> 0 < h' ->
  disjoint (@mkRect RNum (Fin x) (Fin y) (Fin w) (Fin h)) (@mkRect RNum (Fin x') (Fin y') (Fin w') (Fin h')) ->
  x + w <= x' \/ x' + w' <= x \/ y + h <= y' \/ y' + h' <= y.
Proof.
  intros Hw Hh Hw' Hh' D.
  destruct (Rle_dec (x + w) x'); auto. destruct (Rle_dec (x' + w') x); auto.
  destruct (Rle_dec (y + h) y'); auto. destruct (Rle_dec (y' + h') y); auto. exfalso.
  set (u := (Rmax x x' + Rmin (x + w) (x' + w')) / 2). set (v := (Rmax y y' + Rmin (y + h) (y' + h')) / 2).
  apply (D u v). split.
  - exists x, y, w, h. split; [reflexivity|]. unfold u, v, Rmax, Rmin. repeat destruct Rle_dec; lra.
  - exists x', y', w', h'. split; [reflexivity|]. unfold u, v, Rmax, Rmin. repeat destruct Rle_dec; lra.
Qed.

Section Pad.
Context {O : Type}.
Notation bin := (bin RNum O).
Notation req := (O * T RNum * T RNum)%type.

Definition padReq (p : R) (q : req) : req :=
  let '(o, w, h) := q in (o, paddedSize (Fin p : T RNum) w, paddedSize (Fin p : T RNum) h).
(** the answer of InsertWithPadding made from that of Insert *)
Definition unpad (p : R) (q : req) (a : placement (N:=RNum)) : placement (N:=RNum) :=
  match a with
  | None => None
  | Some (r, rot) => Some (mkRect (add (n:=RNum) (rx r) (Fin p)) (add (n:=RNum) (ry r) (Fin p)) (snd (fst q)) (snd q), rot)
  end.
Fixpoint unpads (p : R) (qs : list req) (l : list (placement (N:=RNum))) : list (placement (N:=RNum)) :=
  match qs, l with q :: qs', a :: l' => unpad p q a :: unpads p qs' l' | _, _ => [] end.

Lemma insertsPadded_inserts f p reqs : forall (b : bin) ans b',
  inserts f b (map (padReq p) reqs) = Ok (ans, b') ->
  insertsPadded f (Fin p : T RNum) b reqs = Ok (unpads p reqs ans, b').
Proof.
  induction reqs as [|[[o w] h] rest IH]; intros b ans b'; cbn [map padReq inserts insertsPadded].
  - intros E. injection E as <- <-. reflexivity.
  - unfold InsertWithPadding.
    destruct (Insert f b o (paddedSize (Fin p : T RNum) w) (paddedSize (Fin p : T RNum) h)) as [[a b1]| | |] eqn:E1; cbn [bind]; try discriminate.
    destruct (inserts f b1 (map (padReq p) rest)) as [[l b2]| | |] eqn:E2; cbn [bind]; try discriminate.
    intros E. injection E as <- <-. rewrite (IH _ _ _ E2). cbn [bind unpads]. destruct a as [[r rot]|]; reflexivity.
Qed.

(** the ground a padded rectangle leaves for the part *)
Definition core (p : R) (r : rectR) : rectR :=
  mkRect (add (n:=RNum) (rx r) (Fin p)) (add (n:=RNum) (ry r) (Fin p))
         (sub (n:=RNum) (rw r) (Fin (2 * p))) (sub (n:=RNum) (rh r) (Fin (2 * p))).
Definition foot (p : R) (a : placement (N:=RNum)) : option rectR := match a with Some (r, _) => Some (core p r) | None => None end.

Lemma pad_posReq p q : 0 <= p -> posReq q -> posReq (padReq p q).
Proof.
  intros Hp (w & h & (o & ->) & Hw & Hh). exists (p * 2 + w), (p * 2 + h). split; [exists o; reflexivity|lra].
Qed.

Lemma padded_history f p X Y W H (reqs : list req) : 0 <= p -> 0 <= W -> 0 <= H -> Forall posReq reqs ->
  exists ans b' foots,
    insertsPadded (S (S (S f))) (Fin p : T RNum)
      (NewContainer (Fin X : T RNum) (Fin Y : T RNum) (Fin W : T RNum) (Fin H : T RNum) : bin) reqs = Ok (ans, b') /\
    Forall2 (fun q a => match a with Some (r, _) => exists x y w h, sizeReq q w h /\ rectIs r x y w h | None => True end) reqs ans /\
    Forall2 (fun a f => match a, f with
                        | Some (r, _), Some g => g = r \/ g = turn r
                        | None, None => True
                        | _, _ => False end) ans foots /\
    Forall (fun f => match f with Some g => clear_of_edges p X Y W H g | None => True end) foots /\
    pairwise (fun f g => match f, g with Some a, Some b => apart (2 * p) a b | _, _ => True end) foots.
Proof.
  intros Hp HW HH Hq.
  assert (Hq' : Forall posReq (map (padReq p) reqs)).
  { rewrite Forall_map. eapply Forall_impl; [|exact Hq]. intros q. apply pad_posReq. exact Hp. }
  destruct (container_history f X Y W H _ HW HH Hq') as (ans & b' & E & _ & S & D & _).
  exists (unpads p reqs ans), b', (map (foot p) ans).
  split; [apply insertsPadded_inserts; exact E|]. clear E.
  assert (HF : Forall (fun a => match a with Some (r, _) => exists x y w h, rectIs r x y (w + 2 * p) (h + 2 * p) /\ 0 < w /\ 0 < h /\
       X <= x /\ x + w + 2 * p <= X + W /\ Y <= y /\ y + h + 2 * p <= Y + H | None => True end) ans).
  { clear D Hq'. revert reqs Hq S. induction ans as [|a l IH]; intros reqs Hq S; constructor.
    - inversion S as [|q0 ? qs ? Hs Sr Eq]; subst. destruct reqs as [|q reqs]; [discriminate|]. cbn in Eq. injection Eq as -> ->.
      destruct a as [[r rot]|]; auto. destruct Hs as [Hr Hin]. inversion Hq as [|? ? (w & h & (o & ->) & Hw & Hh) _]; subst.
      destruct Hr as (x & y & w' & h' & [o' Es] & Hr). cbn in Es. injection Es as _ Ew Eh.
      destruct Hin as (x1 & y1 & w1 & h1 & x2 & y2 & w2 & h2 & E1 & E2 & B).
      unfold rectIs in *. cbn [binRect] in E2. injection E2 as <- <- <- <-.
      destruct Hr as [Hr|Hr]; rewrite Hr in E1; injection E1 as <- <- <- <-.
      + exists x, y, w, h. split; [rewrite Hr; f_equal; f_equal; lra|lra].
      + exists x, y, h, w. split; [rewrite Hr; f_equal; f_equal; lra|lra].
    - inversion S as [|q0 ? qs ? Hs Sr Eq]; subst. destruct reqs as [|q reqs]; [discriminate|]. cbn in Eq. injection Eq as -> ->.
      inversion Hq; subst. eapply IH; eauto. }
  split; [|split; [|split]].
  - clear D HF Hq'. revert reqs Hq S. induction ans as [|a l IH]; intros reqs Hq S.
    + inversion S as [Eq|]. destruct reqs; [constructor|discriminate].
    + inversion S as [|q0 ? qs ? Hs Sr Eq]; subst. destruct reqs as [|q reqs]; [discriminate|]. cbn in Eq. injection Eq as -> ->.
      inversion Hq; subst. cbn [unpads]. constructor; [|apply IH; auto].
      destruct a as [[r rot]|]; cbn; auto. destruct Hs as [(x & y & w & h & [o' Es] & Hr) _].
      destruct q as [[o qw] qh]. match goal with H : posReq _ |- _ => destruct H as (w0 & h0 & [o0 E0] & _) end. injection E0 as -> -> ->.
      exists (x + p), (y + p), w0, h0. split; [exists o0; reflexivity|]. unfold rectIs in *. cbn [fst snd].
      destruct Hr as [Hr|Hr]; rewrite Hr; reflexivity.
  - clear D HF Hq'. revert reqs Hq S. induction ans as [|a l IH]; intros reqs Hq S.
    + inversion S as [Eq|]. destruct reqs; [constructor|discriminate].
    + inversion S as [|q0 ? qs ? Hs Sr Eq]; subst. destruct reqs as [|q reqs]; [discriminate|]. cbn in Eq. injection Eq as -> ->.
      inversion Hq; subst. cbn [unpads map]. constructor; [|apply IH; auto].
      destruct a as [[r rot]|]; cbn; auto. destruct Hs as [(x & y & w & h & [o' Es] & Hr) _].
      destruct q as [[o qw] qh]. match goal with H : posReq _ |- _ => destruct H as (w0 & h0 & [o0 E0] & _) end. injection E0 as -> -> ->.
      cbn in Es. injection Es as _ Ew Eh. unfold rectIs in *. cbn [fst snd].
      destruct Hr as [Hr|Hr]; rewrite Hr; unfold core, turn; cbn [rx ry rw rh]; [left|right]; unfold sub, RNum; cbn; f_equal; f_equal; lra.
  - rewrite Forall_map. eapply Forall_impl; [|exact HF]. intros [[r rot]|]; cbn [foot]; auto.
    intros (x & y & w & h & Er & Hw & Hh & B). unfold rectIs in Er. subst r.
    exists (x + p), (y + p), w, h. split; [|lra]. unfold rectIs, core. cbn. f_equal; f_equal; lra.
  - intros i j a c Hij Hi Hj. rewrite nth_error_map in Hi, Hj.
    destruct (nth_error ans i) as [ai|] eqn:Ei; [|discriminate]. destruct (nth_error ans j) as [aj|] eqn:Ej; [|discriminate].
    cbn in Hi, Hj. injection Hi as <-. injection Hj as <-. specialize (D i j ai aj Hij Ei Ej).
    pose proof (nth_error_In _ _ Ei) as Ii. pose proof (nth_error_In _ _ Ej) as Ij. rewrite Forall_forall in HF.
    apply HF in Ii, Ij. destruct ai as [[r rot]|]; cbn [foot]; [|auto]. destruct aj as [[r' rot']|]; cbn [foot]; [|auto].
    destruct Ii as (x & y & w & h & Er & Hw & Hh & B). destruct Ij as (x' & y' & w' & h' & Er' & Hw' & Hh' & B').
    unfold rectIs in Er, Er'. subst r r'. apply disjoint_apart in D; try lra.
    exists (x + p), (y + p), w, h, (x' + p), (y' + p), w', h'. unfold rectIs, core. cbn.
    split; [f_equal; f_equal; lra|]. split; [f_equal; f_equal; lra|]. lra.
Qed.
End Pad.
