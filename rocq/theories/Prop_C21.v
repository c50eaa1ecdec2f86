(** C21: free area is accounted exactly. *)
From Coq Require Import List ZArith Bool Reals Lra.
From Coq.Floats Require Import SpecFloat.
From Verif Require Import Num FloatNum RealNum BinPack BinPackProofs BinPackGeom Witness.
Import ListNotations.
Local Open Scope R_scope.

(** the area of a request that was answered with a placement *)
Definition servedArea {O} (q : O * T RNum * T RNum) (a : placement (N:=RNum)) : R :=
  match q, a with (_, Fin w, Fin h), Some _ => w * h | _, _ => 0 end.
Fixpoint servedAreas {O} (reqs : list (O * T RNum * T RNum)) (ans : list (placement (N:=RNum))) : R :=
  match reqs, ans with q :: qs, a :: l => servedArea q a + servedAreas qs l | _, _ => 0 end.

Lemma placed_served {O} (reqs : list (O * T RNum * T RNum)) ans :
  Forall2 (fun q a => match a with Some (r, _) => asRequested q r | None => True end) reqs ans ->
  sumR (map area (placed ans)) = servedAreas reqs ans.
Proof.
  induction 1 as [|q a qs l H _ IH]; [reflexivity|]. cbn [placed servedAreas]. destruct a as [[r rot]|].
  - cbn [map sumR]. rewrite IH. f_equal. destruct H as (x & y & w & h & [o ->] & [E|E]); unfold rectIs in E; subst r; cbn; ring.
  - rewrite IH. destruct q as [[o [w| |]] [h| |]]; cbn; lra.
Qed.

(** GetEmptyArea plus the areas of the parts inserted so far is the container's area, after any history. *)
Theorem C21_area_conserved : forall (O : Type) (x y w h : R) (reqs : list (O * T RNum * T RNum)),
  0 <= w -> 0 <= h -> Forall posReq reqs ->
  exists ans b' free, inserts 3 (NewContainer (Fin x : T RNum) (Fin y : T RNum) (Fin w : T RNum) (Fin h : T RNum) : bin RNum O) reqs = Ok (ans, b') /\
    GetEmptyArea b' = Fin free /\ free + servedAreas reqs ans = w * h.
Proof.
  intros O x y w h reqs Hw Hh Hr. destruct (container_history 0 x y w h reqs Hw Hh Hr) as (ans & b' & E & _ & S & D & A).
  exists ans, b', (w * h - sumR (map area (placed ans))). split; [exact E|]. split; [exact A|].
  rewrite <- (placed_served reqs ans); [lra|]. clear - S. induction S as [|q a l l' Hq S IH]; constructor; [|exact IH]. destruct a as [[r rot]|]; tauto.
Qed.
Print Assumptions C21_area_conserved.

(** a refused insert leaves the container as it was: exact arithmetic and binary64 *)
Theorem C21_refused_unchanged_R : forall (O : Type) (o : O) (w h : T RNum) (b : bin RNum O),
  pos RNum_pack w -> pos RNum_pack h -> binFin RNum_pack b ->
  forall b', Insert 3 b o w h = Ok (None, b') -> b' = b.
Proof.
  intros O o w h b Pw Ph Hb b' E.
  destruct (Insert_spec RNum_pack o w h 0 Pw Ph b Hb) as [(r' & rot' & b1 & E1 & _)|[E1 _]]; rewrite E1 in E; congruence.
Qed.
Print Assumptions C21_refused_unchanged_R.
Theorem C21_refused_unchanged_binary64 : forall (O : Type) (o : O) (w h : T FNum) (b : bin FNum O),
  pos FNum_pack w -> pos FNum_pack h -> binFin FNum_pack b ->
  forall b', Insert 3 b o w h = Ok (None, b') -> b' = b.
Proof.
  intros O o w h b Pw Ph Hb b' E.
  destruct (Insert_spec FNum_pack o w h 0 Pw Ph b Hb) as [(r' & rot' & b1 & E1 & _)|[E1 _]]; rewrite E1 in E; congruence.
Qed.
Print Assumptions C21_refused_unchanged_binary64.
(** parts of zero or NaN size are refused by every container without children, without change *)
Theorem C21_zero_size_refused : forall (N : Num) (O : Type) (o : O) (w h : T N) (r : rect N) rot obj,
  eqb w zero || eqb h zero || isnan w || isnan h = true -> Insert 1 (Leaf r rot obj) o w h = Ok (None, Leaf r rot obj : bin N O).
Proof. intros N O o w h r rot obj H. cbn [Insert leafInsert]. rewrite H. reflexivity. Qed.
Print Assumptions C21_zero_size_refused.

Definition area_after (reqs : list (nat * T FNum * T FNum)) : option spec_float :=
  match inserts 3 (NewContainer (fz 0) (fz 0) (fz 10) (fz 20)) reqs with Ok (_, b) => Some (GetEmptyArea b) | _ => None end.
(** 200 - 20 - 72 = 108; the third part is refused *)
Example C21_example : area_after [(1%nat, fz 4, fz 5); (2%nat, fz 12, fz 6); (3%nat, fz 9, fz 19)] = Some (fz 108).
Proof. vm_compute. reflexivity. Qed.
Example C21_example_hyp :
  Forall posReq [(1%nat, Fin 4 : T RNum, Fin 5 : T RNum); (2%nat, Fin 12 : T RNum, Fin 6 : T RNum)].
Proof. repeat constructor; [exists 4, 5|exists 12, 6]; (split; [eexists; reflexivity|lra]). Qed.
