(** Model of binpacking/binpacking.go. *)
From Coq Require Import List ZArith Bool.
From Verif Require Import Num.
Import ListNotations.
Local Open Scope num_scope.

Section BinPack.
Context {N : Num}.
Context {O : Type}.        (* Go's interface{}: the packed objects *)
Notation F := (T N).

(** the X, Y, Width, Height fields of binpacking/binpacking.go:12-24 [Bin] *)
Record rect := mkRect { rx : F; ry : F; rw : F; rh : F }.

(** binpacking/binpacking.go:12-24 [Bin].  HasChildren is the constructor, HasObject/Object the option.
    (A bin never has both: line 158 returns before an object is stored in a bin with children.) *)
Inductive bin : Type :=
| Leaf (r : rect) (rotated : bool) (obj : option O)
| Node (r : rect) (rotated : bool) (left right : bin).

Definition binRect (b : bin) : rect := match b with Leaf r _ _ => r | Node r _ _ _ => r end.

(** binpacking/binpacking.go:118-128 [NewBin] *)
Definition NewBin (x y w h : F) (rotated : bool) : bin := Leaf (mkRect x y w h) rotated None.

(** binpacking/binpacking.go:48-56 [NewContainer]: the container is its root bin *)
Definition NewContainer (x y w h : F) : bin := NewBin x y w h false.
(** binpacking/binpacking.go:60-65 [NewSingleObjectContainer] *)
Definition NewSingleObjectContainer (o : O) (x y w h : F) : bin := Leaf (mkRect x y w h) false (Some o).

(** binpacking/binpacking.go:82-84 [IsEmpty] *)
Definition IsEmpty (b : bin) : bool := match b with Leaf _ _ None => true | _ => false end.

(** binpacking/binpacking.go:130-142 [getEmpties], 69-71 [GetEmptyBins]; the accumulator is list append *)
Fixpoint getEmpties (b : bin) : list rect :=
  match b with
  | Leaf r _ None => [r]
  | Leaf _ _ (Some _) => []
  | Node _ _ l r => getEmpties l ++ getEmpties r
  end.

(** binpacking/binpacking.go:74-80 [GetEmptyArea] *)
Definition GetEmptyArea (b : bin) : F := fold_left (fun area r => area + rw r * rh r) (getEmpties b) zero.

(** binpacking/binpacking.go:144-150 [IsHorizontalSplit] *)
Definition IsHorizontalSplit (b : bin) : bool :=
  match b with Leaf _ _ _ => false | Node _ _ l r => eqb (rx (binRect l)) (rx (binRect r)) end.

(** lines 178, 183: the part of size w x h is too large for the bin *)
Definition tooSmall (r : rect) (w h : F) : bool := ltb (rh r) h || ltb (rw r) w.

(** the result of Insert: where the object was put (rectangle and Rotated flag), or nothing *)
Definition placement := option (rect * bool).

(** binpacking/binpacking.go:165-247, a bin without children: the answer and the bin afterwards.
    The last line recurses into the freshly created left child; [fuel] bounds that recursion
    ([leafInsert_done] shows three levels suffice for finite sizes, C24). *)
Fixpoint leafInsert (fuel : nat) (r : rect) (rotated0 : bool) (obj : option O) (o : O) (w0 h0 : F) : res (placement * bin) :=
  match fuel with
  | 0 => OutOfFuel
  | S f =>
      let unchanged := Leaf r rotated0 obj in
      if eqb w0 zero || eqb h0 zero || isnan w0 || isnan h0 then Ok (None, unchanged)
      else
        let rotated := tooSmall r w0 h0 in
        let w := if rotated then h0 else w0 in
        let h := if rotated then w0 else h0 in
        if rotated && tooSmall r w h then Ok (None, unchanged)
        else match obj with
        | Some _ => Ok (None, unchanged)
        | None =>
            if eqb (rh r) h && eqb (rw r) w then Ok (Some (r, rotated0), Leaf r rotated0 (Some o))
            else
              let '(lr, rr) :=
                if gtb (rw r - w) (rh r - h)
                then (mkRect (rx r) (ry r) w (rh r), mkRect (rx r + w) (ry r) (rw r - w) (rh r))
                else (mkRect (rx r) (ry r) (rw r) h, mkRect (rx r) (ry r + h) (rw r) (rh r - h)) in
              bind (leafInsert f lr rotated None o w0 h0) (fun '(ans, l) =>
                Ok (ans, Node r rotated0 l (Leaf rr rotated None)))
        end
  end.

(** binpacking/binpacking.go:157-248 [Bin.Insert] *)
Fixpoint Insert (fuel : nat) (b : bin) (o : O) (w h : F) : res (placement * bin) :=
  match b with
  | Leaf r rot obj => leafInsert fuel r rot obj o w h
  | Node r rot lft rgt =>
      bind (Insert fuel lft o w h) (fun '(ans, lft') =>
        match ans with
        | Some _ => Ok (ans, Node r rot lft' rgt)
        | None => bind (Insert fuel rgt o w h) (fun '(ans', rgt') => Ok (ans', Node r rot lft' rgt'))
        end)
  end.

(** binpacking/binpacking.go:88-95 [Container.Insert] is [Insert] on the root (with an empty Bin value when it fails);
    98-116 [InsertWithPadding].  Simplification: the object stored in the tree is [o], not a wrapper around it. *)
Definition paddedSize (p x : F) : F := p * ofZ 2 + x.
Definition InsertWithPadding (fuel : nat) (b : bin) (o : O) (w h p : F) : res (placement * bin) :=
  bind (Insert fuel b o (paddedSize p w) (paddedSize p h)) (fun '(ans, b') =>
    Ok (match ans with
        | None => None
        | Some (r, rot) => Some (mkRect (rx r + p) (ry r + p) w h, rot)
        end, b')).

(** a history of Insert calls on one container: the answers in order, and the final tree *)
Fixpoint inserts (fuel : nat) (b : bin) (reqs : list (O * F * F)) : res (list placement * bin) :=
  match reqs with
  | [] => Ok ([], b)
  | (o, w, h) :: rest =>
      bind (Insert fuel b o w h) (fun '(a, b1) =>
        bind (inserts fuel b1 rest) (fun '(l, b2) => Ok (a :: l, b2)))
  end.
Fixpoint insertsPadded (fuel : nat) (p : F) (b : bin) (reqs : list (O * F * F)) : res (list placement * bin) :=
  match reqs with
  | [] => Ok ([], b)
  | (o, w, h) :: rest =>
      bind (InsertWithPadding fuel b o w h p) (fun '(a, b1) =>
        bind (insertsPadded fuel p b1 rest) (fun '(l, b2) => Ok (a :: l, b2)))
  end.

End BinPack.
Arguments rect N : clear implicits.
Arguments bin N O : clear implicits.
