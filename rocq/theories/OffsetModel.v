(** Model of transforms/offset.go. *)
From Coq Require Import String List ZArith Bool Arith.
From Verif Require Import Num PathModel DrawModel SegOps TransformsModel SvgParse Bezier.
Import ListNotations.
Local Open Scope num_scope.

Section OffsetT.
Context {N : Num}.
Notation F := (T N).
Notation P := (Pt N).
Notation seg := (seg N).
Variable co : CurveOps N.
Variable dop : Z.
(** fuel and spare capacity of the inner JoinTransform, see [JoinT] *)
Variable jfuel : nat.
Variable roomy : bool.

(** transforms/offset.go:7-13 [SizeShouldBe] *)
Inductive sizeShouldBe := Unknown | Smaller | Larger.

(** transforms/offset.go:49-64: the offset of every visible segment, each piece preceded by a move
    (a MoveSegment literal: its start is the zero point) *)
Fixpoint offsetSegs (d : F) (l : list seg) : res (list seg) :=
  match l with
  | [] => Ok []
  | g :: r =>
      if isMove g then offsetSegs d r
      else bind (Offset co dop g d) (fun sgs =>
           bind (offsetSegs d r) (fun rest =>
           match sgs with
           | [] => Ok rest
           | s0 :: _ => Ok (Move zeroPt (sstart s0) :: sgs ++ rest)%list
           end))
  end.

(** transforms/offset.go:74: the trimmed path is closed *)
Definition isClosed (trimmed : list seg) : bool :=
  match trimmed with [] => false | g :: _ => ptEquals (sstart g) (send (last trimmed g)) end.

(** transforms/offset.go:40-84, one stroke, without the size check.  Simplification: an error of JoinTransform is an error
    of the result also when SizeShouldBe is set (the code then ignores it, line 81-92); with the default curve operators
    JoinTransform reports none. *)
Definition offsetStroke (prec : nat) (d : F) (p : path N) : res (path N) :=
  let trimmed := TrimMove p in
  match trimmed with
  | [] => Ok p
  | _ =>
      bind (offsetSegs d p) (fun segments =>
      bind (Rebuild (NewPathFromSegments segments)) (fun cleanedUp =>
      JoinT co dop jfuel roomy (isClosed trimmed) prec cleanedUp))
  end.

(** transforms/offset.go:86-111: must the offset be redone on the reversed path? *)
Definition shouldReverse (size : sizeShouldBe) (p newPath : path N) : res bool :=
  bind (BoundingBoxTrimWhitespace co p) (fun '(otl, obr) =>
  bind (BoundingBoxTrimWhitespace co newPath) (fun '(ntl, nbr) =>
  let oX := px obr - px otl in let oY := py obr - py otl in
  let nX := px nbr - px ntl in let nY := py nbr - py ntl in
  Ok (match size with
      | Unknown => false
      | Smaller => leb oX nX || leb oY nY
      | Larger => geb oX nX || geb oY nY
      end))).

(** transforms/offset.go:24-126 [OffsetTransform.PathTransform]; the recursion of lines 32-39 is on the pieces of
    SplitPathOnMove, each of which is a single stroke, so two levels are enough *)
Fixpoint OffsetT (fuel : nat) (size : sizeShouldBe) (prec : nat) (d : F) (p : path N) : res (path N) :=
  if eqb d zero then Ok p
  else match fuel with
  | O => OutOfFuel
  | S f =>
      let pths := SplitPathOnMove p in
      if Nat.ltb 1 (length pths) then
        (fix each (ps : list (path N)) (acc : path N) : res (path N) :=
           match ps with
           | [] => Ok acc
           | q :: r => bind (OffsetT f size prec d q) (fun q' => each r (AddSegments acc q'))
           end) pths NewDraw
      else
        match TrimMove p with
        | [] => Ok p
        | _ =>
          bind (offsetStroke prec d p) (fun newPath =>
          match size with
          | Unknown => Ok newPath
          | _ => bind (shouldReverse size p newPath) (fun b =>
                 if b then OffsetT f Unknown prec d (PathReverse p) else Ok newPath)
          end)
        end
  end.

End OffsetT.
