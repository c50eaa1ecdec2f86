(** C20, continued: a bin that is divided is divided in two, side by side or one above the other, and says which. *)
From Coq Require Import List ZArith Bool Reals Lra.
From Verif Require Import Num NumLaws FloatNum RealNum BinPack BinPackProofs BinPackGeom Witness.
Import ListNotations.
Local Open Scope R_scope.

Section Split.
Context {O : Type}.
Notation bin := (bin RNum O).

(** *** what is meant *)
(** the first is above the second, and together they are the bin *)
Definition stacked (r a b : rectR) : Prop := exists x y w h k, rectIs r x y w h /\ rectIs a x y w k /\ rectIs b x (y + k) w (h - k) /\ 0 < k <= h.
(** the first is left of the second, and together they are the bin *)
Definition beside (r a b : rectR) : Prop := exists x y w h k, rectIs r x y w h /\ rectIs a x y k h /\ rectIs b (x + k) y (w - k) h /\ 0 < k <= w.
(** the bins inside a bin *)
Inductive partOf : bin -> bin -> Prop :=
| part_self b : partOf b b
| part_left r rot a b c : partOf c a -> partOf c (Node r rot a b)
| part_right r rot a b c : partOf c b -> partOf c (Node r rot a b).

(** *** the divisions made by insertions *)
Fixpoint divided (b : bin) : Prop :=
  match b with
  | Leaf _ _ _ => True
  | Node r _ a c => (stacked r (binRect a) (binRect c) \/ beside r (binRect a) (binRect c)) /\ divided a /\ divided c
  end.
Lemma leaf_rect : forall f (r : rectR) rot obj (o : O) w h ans b, leafInsert f r rot obj o w h = Ok (ans, b) -> binRect b = r.
Proof.
  intros [|f] r rot obj o w h ans b H; [discriminate|]. cbn [leafInsert] in H.
  destruct (_ || _ || _ || _)%bool; [injection H as <- <-; reflexivity|]. destruct (_ && _)%bool; [injection H as <- <-; reflexivity|]. destruct obj; [injection H as <- <-; reflexivity|].
  destruct (_ && _)%bool; [injection H as <- <-; reflexivity|]. destruct (gtb _ _); destruct (leafInsert f _ _ _ _ _ _) as [[a l]| | |]; try discriminate; injection H as <- <-; reflexivity.
Qed.
Lemma insert_rect f : forall (b : bin) (o : O) (w h : T RNum) ans b', Insert f b o w h = Ok (ans, b') -> binRect b' = binRect b.
Proof.
  destruct b as [r rot obj|r rot a c]; intros o w h ans b' H; [eapply leaf_rect; exact H|]. cbn [Insert] in H.
  destruct (Insert f a o w h) as [[[x|] a']| | |]; cbn [bind] in H; try discriminate; [injection H as <- <-; reflexivity|].
  destruct (Insert f c o w h) as [[y c']| | |]; cbn [bind] in H; try discriminate. injection H as <- <-. reflexivity.
Qed.
Lemma gtb_Fin a b : @gtb RNum (Fin a) (Fin b) = true -> b < a.
Proof. unfold gtb. cbn. intros H. unfold Rltb in H. destruct (Rlt_dec b a); [assumption|discriminate]. Qed.
Lemma small_Fin x y w h u v : @tooSmall RNum (@mkRect RNum (Fin x) (Fin y) (Fin w) (Fin h)) (Fin u) (Fin v) = false -> u <= w /\ v <= h.
Proof. unfold tooSmall. cbn. intros H. apply orb_false_iff in H. destruct H as [H1 H2]. unfold Rltb in H1, H2. destruct (Rlt_dec h v), (Rlt_dec w u); try discriminate. lra. Qed.
Lemma leaf_divided : forall f (r : rectR) rot obj (o : O) w h ans b, 0 < w -> 0 < h -> realRect r -> leafInsert f r rot obj o (Fin w : T RNum) (Fin h : T RNum) = Ok (ans, b) -> divided b.
Proof.
  induction f as [|f IH]; intros r rot obj o w h ans b Hw Hh R H; [discriminate|]. cbn [leafInsert] in H.
  destruct (_ || _ || _ || _)%bool; [injection H as <- <-; exact I|].
  destruct R as (x & y & W & H0 & E & PW & PH). unfold rectIs in E. subst r.
  set (rt := tooSmall _ _ _) in *.
  assert (SZ : exists u v, 0 < u /\ 0 < v /\ (if rt then (Fin h : T RNum) else Fin w) = Fin u /\ (if rt then (Fin w : T RNum) else Fin h) = Fin v /\ (rt = false -> u = w /\ v = h)).
  { destruct rt; [exists h, w|exists w, h]; repeat split; auto; discriminate. }
  destruct SZ as (u & v & Hu & Hv & Eu & Ev & RT). rewrite Eu, Ev in H.
  destruct (rt && tooSmall (@mkRect RNum (Fin x) (Fin y) (Fin W) (Fin H0)) (Fin u : T RNum) (Fin v : T RNum))%bool eqn:B; [injection H as <- <-; exact I|].
  assert (FIT : u <= W /\ v <= H0).
  { destruct rt eqn:ER; cbn [andb] in B; [eapply small_Fin; exact B|]. destruct (RT eq_refl) as [-> ->]. subst rt. eapply small_Fin. exact ER. }
  clear B. destruct obj; [injection H as <- <-; exact I|]. destruct (_ && _)%bool; [injection H as <- <-; exact I|]. cbn [rx ry rw rh] in H.
  destruct (gtb _ _).
  - destruct (leafInsert f _ _ _ _ _ _) as [[a l]| | |] eqn:EL; cbn [bind] in H; try discriminate. injection H as <- <-. cbn [divided binRect]. rewrite (leaf_rect _ _ _ _ _ _ _ _ _ EL).
    split; [right; exists x, y, W, H0, u; repeat split; auto; lra|]. split; [|exact I]. eapply IH; [exact Hw|exact Hh| |exact EL]. exists x, y, u, H0. repeat split; auto; lra.
  - destruct (leafInsert f _ _ _ _ _ _) as [[a l]| | |] eqn:EL; cbn [bind] in H; try discriminate. injection H as <- <-. cbn [divided binRect]. rewrite (leaf_rect _ _ _ _ _ _ _ _ _ EL).
    split; [left; exists x, y, W, H0, v; repeat split; auto; lra|]. split; [|exact I]. eapply IH; [exact Hw|exact Hh| |exact EL]. exists x, y, W, v. repeat split; auto; lra.
Qed.
Lemma insert_divided f o w h : 0 < w -> 0 < h -> forall b ans b', good b -> divided b -> Insert f b o (Fin w : T RNum) (Fin h : T RNum) = Ok (ans, b') -> divided b'.
Proof.
  intros Hw Hh. induction b as [r rot obj|r rot a IHa c IHc]; intros ans b' G D H.
  - exact (leaf_divided f r rot obj o w h ans b' Hw Hh G H).
  - cbn [Insert] in H. destruct G as (T1 & Ga & Gc). destruct D as (S & Da & Dc).
    destruct (Insert f a o (Fin w : T RNum) (Fin h)) as [[[x|] a']| | |] eqn:EA; cbn [bind] in H; try discriminate.
    + injection H as <- <-. cbn [divided]. rewrite (insert_rect _ _ _ _ _ _ _ EA). eauto.
    + destruct (Insert f c o (Fin w : T RNum) (Fin h)) as [[y c']| | |] eqn:EC; cbn [bind] in H; try discriminate. injection H as <- <-. cbn [divided].
      rewrite (insert_rect _ _ _ _ _ _ _ EA), (insert_rect _ _ _ _ _ _ _ EC). eauto.
Qed.
Lemma inserts_divided f reqs : Forall posReq reqs -> forall (b : bin) ans b', good b -> divided b -> inserts (S (S (S f))) b reqs = Ok (ans, b') -> divided b'.
Proof.
  induction 1 as [|q rest Q Hr IH]; intros b ans b' G D H; [cbn in H; injection H as <- <-; exact D|].
  pose proof (inserts_geom f [q] ltac:(constructor; [exact Q|constructor]) b G) as (a1 & b1 & E1 & G1 & _).
  destruct Q as (w & h & (o & ->) & Hw & Hh). cbn [inserts] in H, E1.
  destruct (Insert (S (S (S f))) b o (Fin w : T RNum) (Fin h)) as [[a b2]| | |] eqn:EI; cbn [bind] in H, E1; try discriminate. injection E1 as <- <-.
  destruct (inserts (S (S (S f))) b2 rest) as [[l b3]| | |] eqn:ER; cbn [bind] in H; try discriminate. injection H as <- <-.
  eapply IH; [exact G1| |exact ER]. exact (insert_divided _ o w h Hw Hh b a b2 G D EI).
Qed.
Lemma divided_part b c : divided b -> partOf c b -> divided c.
Proof. intros D P. induction P as [b|r rot a b c P IH|r rot a b c P IH]; auto; destruct D as (_ & Da & Db); auto. Qed.

(** After any insertions of parts, a bin inside the container says that its division is horizontal exactly if it was divided, completely, into one above the other;
    the other divided ones were divided, completely, side by side. *)
Theorem C20_split x y w h (reqs : list (O * T RNum * T RNum)) : 0 <= w -> 0 <= h -> Forall posReq reqs ->
  exists ans b, inserts 3 (NewContainer (Fin x : T RNum) (Fin y : T RNum) (Fin w : T RNum) (Fin h : T RNum) : bin) reqs = Ok (ans, b) /\
    forall t, partOf t b -> (IsHorizontalSplit t = true <-> exists r rot p q, t = Node r rot p q /\ stacked r (binRect p) (binRect q)) /\
      (forall r rot p q, t = Node r rot p q -> (IsHorizontalSplit t = false <-> beside r (binRect p) (binRect q))).
Proof.
  intros Hw Hh F. destruct (container_history 0 x y w h reqs Hw Hh F) as (ans & b & E & _). exists ans, b. split; [exact E|].
  assert (D : divided b) by (eapply inserts_divided; [exact F|apply good_container; [exact Hw|exact Hh]|exact I|exact E]).
  intros [r rot ob|r rot p q] P; [split; [split; [discriminate|intros (r' & rot' & p & q & Q & _); discriminate Q]|discriminate]|].
  apply (divided_part _ _ D) in P. destruct P as (S & _). clear - S. cbn [IsHorizontalSplit].
  assert (A : stacked r (binRect p) (binRect q) -> @eqb RNum (rx (binRect p)) (rx (binRect q)) = true).
  { intros (x1 & y1 & w1 & h1 & k & E1 & E2 & E3 & K). unfold rectIs in *. rewrite E2, E3. cbn [rx]. cbn. unfold Reqb. destruct (Req_EM_T x1 x1); [reflexivity|lra]. }
  assert (B : beside r (binRect p) (binRect q) -> @eqb RNum (rx (binRect p)) (rx (binRect q)) = false).
  { intros (x1 & y1 & w1 & h1 & k & E1 & E2 & E3 & K). unfold rectIs in *. rewrite E2, E3. cbn [rx]. cbn. unfold Reqb. destruct (Req_EM_T x1 (x1 + k)); [lra|reflexivity]. }
  split; [split|].
  - intros H. exists r, rot, p, q. split; [reflexivity|]. destruct S as [S|S]; [exact S|apply B in S; congruence].
  - intros (r' & rot' & p' & q' & Q & H). injection Q as <- <- <- <-. auto.
  - intros r' rot' p' q' Q. injection Q as <- <- <- <-. split; [|auto]. intros H. destruct S as [S|S]; [apply A in S; congruence|exact S].
Qed.
End Split.
Print Assumptions C20_split.
(** a part of 4 by 5 in a container of 10 by 20: the container is divided into one above the other, its first bin side by side *)
Example C20_split_example : Forall posReq [(1%nat, Fin 4 : T RNum, Fin 5 : T RNum)] /\
  match inserts 3 (NewContainer (fz 0) (fz 0) (fz 10) (fz 20)) [(1%nat, fz 4, fz 5)] with
  | Ok (_, Node r rot p q) => [IsHorizontalSplit (Node r rot p q); IsHorizontalSplit p; IsHorizontalSplit q] | _ => [] end = [true; false; false].
Proof.
  split; [|vm_compute; reflexivity]. constructor; [|constructor]. exists 4, 5. split; [eexists; reflexivity|lra].
Qed.
