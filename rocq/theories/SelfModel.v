(** Model of bezier/bezier.go [IntersectsSelf]: a curve that crosses itself. *)
From Coq Require Import List.
From Verif Require Import Num PathModel SegOps Bezier.
Import ListNotations.

Section Self.
Context {N : Num} (tr : Trig N) (bm : BMath N).
(** bezier/bezier.go:560-567: each piece with those after the next one *)
Fixpoint selfLoop (fuel : nat) (th : T N) (l : list (@cseg N)) : res (list (T N * T N)) :=
  match l with
  | a :: ((_ :: rest) as r) => bind (curveIntersects bm fuel [a] rest th) (fun x => bind (selfLoop fuel th r) (fun y => Ok (x ++ y)))
  | _ => Ok []
  end.
(** bezier/bezier.go:553-575 [IntersectsSelf]; None = no intersection, t1 and t2 are then 0 *)
Definition IntersectsSelf (fuel : nat) (c : @crv N) (th : T N) : res (option (T N * T N)) :=
  bind (reduce tr bm fuel c) (fun l => bind (selfLoop fuel th l) (fun rs => Ok (hd_error rs))).
End Self.
