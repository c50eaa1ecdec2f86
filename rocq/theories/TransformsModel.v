(** Model of package transforms, the part that works on the structure of paths:
    cleanup.go, dedup.go, reverse.go, path_reorder.go, join.go, slice.go.
    Precisions are natural numbers (a negative precision would print a malformed verb and is not modelled). *)
From Coq Require Import String List ZArith NArith Bool Arith.
From Verif Require Import Num PathModel DrawModel SegOps.
Import ListNotations.
Local Open Scope num_scope.

Section Transforms.
Context {N : Num}.
Notation F := (T N).
Notation P := (Pt N).
Notation seg := (seg N).

(** transforms/cleanup.go:22-44, the first loop.  [first] is [i == 0], [prev] is previousEnd. *)
Definition hasNaNEnd (g : seg) : bool := isnan (px (send g)) || isnan (py (send g)).

Fixpoint cleanup_loop (prec : nat) (first : bool) (prev : P) (l : list seg) : list seg :=
  match l with
  | [] => []
  | s0 :: r =>
      let '(added, s) :=
        if first then
          (if isMove s0 then [] else [Move zeroPt (sstart s0)], s0)
        else if ptEquals (sstart s0) prev then ([], s0)
        else
          let s := if EqualsPrecision (sstart s0) prev (Z.of_nat prec) then setStart s0 prev else s0 in
          ([Move prev (sstart s)], s) in
      added ++
      (if hasNaNEnd s then cleanup_loop prec false prev r
       else s :: cleanup_loop prec false (send s) r)
  end.

(** transforms/cleanup.go:49-67, merging moves; [prev] is the last element of segmentsTmp *)
Fixpoint merge_loop (prev : seg) (l : list seg) : list seg :=
  match l with
  | [] => [prev]
  | s :: r =>
      if isMove s && isMove prev then merge_loop (Move (sstart prev) (send s)) r
      else prev :: merge_loop s r
  end.
Definition mergeMoves (l : list seg) : list seg :=
  match l with [] => [] | g :: r => merge_loop g r end.

(** transforms/cleanup.go:19-71 [CleanupTransform.PathTransform] *)
Definition Cleanup (prec : nat) (p : path N) : path N :=
  NewPathFromSegments (mergeMoves (FixHeadMove (cleanup_loop prec true zeroPt p))).

(** transforms/dedup.go:20-49: [st] is newSegments reversed; reading newSegments[len-1]
    of an empty list panics (line 22) *)
Fixpoint dedup_loop (prec : nat) (st : list seg) (l : list seg) : res (list seg) :=
  match l with
  | [] => Ok (rev st)
  | cur :: r =>
      match st with
      | [] => Panic
      | prev :: st' =>
          if isMove cur then
            if isMove prev then dedup_loop prec (Move (sstart prev) (send cur) :: st') r
            else if String.eqb (StringPrecision (send prev) prec) (StringPrecision (send cur) prec)
                 then dedup_loop prec st r
                 else dedup_loop prec (cur :: st) r
          else if String.eqb (UniqueString prec cur) (UniqueString prec (Reverse prev))
               then dedup_loop prec st' r
               else dedup_loop prec (cur :: st) r
      end
  end.

(** transforms/dedup.go:11-51 [doTransform] *)
Definition dedupOnce (prec : nat) (p : path N) : res (path N) :=
  match p with
  | [] | [_] => Ok p
  | g :: r => bind (dedup_loop prec [g] r) (fun l => Ok (NewPathFromSegments l))
  end.

(** transforms/dedup.go:59-73 [DedupSegmentsTransform.PathTransform] *)
Definition Dedup (prec : nat) (p : path N) : res (path N) :=
  bind (dedupOnce prec p) (fun p1 =>
  bind (dedupOnce prec p1) (fun p2 => Ok (Cleanup prec p2))).

(** transforms/reverse.go:42-60 [PathReverse.PathTransform] (the in-place reversal works on a copy);
    the per-segment reversal, reverse.go:15-40, is the same function as [Reverse] *)
Definition PathReverse (p : path N) : path N := AddSegments NewDraw (map Reverse (rev p)).

(** transforms/path_reorder.go:23-34: index of the first minimum, starting from index 0 *)
Fixpoint argmin_loop (i besti : nat) (best : F) (ds : list F) : nat * F :=
  match ds with
  | [] => (besti, best)
  | d :: r => if ltb d best then argmin_loop (S i) i d r else argmin_loop (S i) besti best r
  end.

(** transforms/path_reorder.go:13-64 [doPath]; pList[0] of an empty list panics *)
Definition reorderStep (prec : nat) (p : path N) (pList : list (path N)) : res (path N * list (path N)) :=
  let endPoint := snd (GetStartAndEnd (TrimTailMove p)) in
  let sD := map (fun q => Distance endPoint (fst (GetStartAndEnd q))) pList in
  let eD := map (fun q => Distance endPoint (snd (GetStartAndEnd q))) pList in
  match sD, eD, pList with
  | s0 :: _, e0 :: _, q0 :: _ =>
      let '(si, sd) := argmin_loop 0 0 s0 sD in
      let '(ei, ed) := argmin_loop 0 0 e0 eD in
      let '(i, distance, reversed) := if ltb ed sd then (ei, ed, true) else (si, sd, false) in
      let '(i, reversed) :=
        if PrecisionEquals distance zero (Z.of_nat prec) then (i, reversed) else (O, false) in
      match nth_error pList i with
      | None => Panic
      | Some q =>
          let ret := if reversed then PathReverse q else q in
          Ok (NewPathFromSegments (p ++ ret), firstn i pList ++ skipn (S i) pList)
      end
  | _, _, _ => Panic
  end.

(** transforms/path_reorder.go:78-87, the loop *)
Fixpoint reorder_loop (fuel : nat) (prec : nat) (p : path N) (pList : list (path N)) : res (path N) :=
  match pList with
  | [] => Ok p
  | _ => match fuel with
         | O => OutOfFuel
         | S f => bind (reorderStep prec p pList) (fun '(p1, pL) => reorder_loop f prec p1 pL)
         end
  end.

(** transforms/path_reorder.go:68-89 [ReorderTransform.PathTransform].
    retList is computed but never used by the code. *)
Definition reorderPaths (prec : nat) (p : path N) : res (path N) :=
  match SplitPathOnMove p with
  | [] | [_] => Ok p
  | q :: pList => reorder_loop (length pList) prec q pList
  end.
Definition Reorder (prec : nat) (p : path N) : res (path N) :=
  match SplitPathOnMove p with
  | [] | [_] => Ok p
  | _ => bind (reorderPaths prec p) (Dedup prec)
  end.

Variable co : CurveOps N.
Variable dop : Z.

(** transforms/join.go:21-123 [JoinTransform.join] *)
Fixpoint join (fuel : nat) (prec : nat) (pth1 pth2 : path N) : res (path N) :=
  match fuel with
  | O => OutOfFuel
  | S f =>
      let p1 := NewPathFromSegmentsWithoutMove (TrimMove pth1) in
      let p2 := NewPathFromSegmentsWithoutMove (TrimMove pth2) in
      match p2 with
      | [] => Ok p1
      | s2 :: _ =>
          match p1 with
          | [] => join f prec (NewPathFromSegmentsWithoutMove (p1 ++ [s2]))
                       (NewPathFromSegmentsWithoutMove (TrimFirst p2))
          | g1 :: _ =>
              let p1s := sstart g1 in
              let p1e := snd (GetStartAndEnd p1) in
              let p2s := sstart s2 in
              let p2e := snd (GetStartAndEnd p2) in
              let ss := Distance p1s p2s in
              let se := Distance p1s p2e in
              let es := Distance p1e p2s in
              let ee := Distance p1e p2e in
              let m := ss in
              let m := if ltb se m then se else m in
              let m := if ltb es m then es else m in
              let m := if ltb ee m then ee else m in
              let normal :=
                let s1 := last p1 g1 in
                bind (if EqualsPrecision p1e p2s (Z.of_nat prec) then Ok [s1; setStart s2 p1e]
                      else Join co dop s1 s2) (fun joined =>
                join f prec (NewPathFromSegmentsWithoutMove (TrimLast p1 ++ joined))
                     (NewPathFromSegmentsWithoutMove (TrimFirst p2))) in
              if eqb m es then normal
              else if eqb m ee then join f prec p1 (PathReverse p2)
              else if eqb m ss then join f prec (PathReverse p1) p2
              else if eqb m se then join f prec (PathReverse p1) (PathReverse p2)
              else normal
          end
      end
  end.

(** transforms/join.go:140-154, the closing step.  [joined] aliases p.Segments(): line 150 overwrites its
    first element with the last of [closed]; line 153 appends TrimLast(closed) over the
    slice without its last element, which overwrites p's last element with closed[0] when the
    backing array has room and otherwise leaves p unchanged; the extended list itself is dropped
    (line 154 uses p.Segments()).  [roomy] says whether the backing array has room for the
    whole append; with at most one appended element there always is. *)
Definition closeStep (roomy : bool) (p : path N) : res (path N) :=
  match p with
  | [] => Ok []
  | start :: _ =>
      bind (Join co dop (last p start) start) (fun closed =>
      match Tail closed with
      | None => Panic
      | Some t =>
          let p1 := t :: tl p in                       (* joined[0] = Tail(closed) *)
          match TrimLast closed with
          | [] => Ok p1
          | [c0] => Ok (TrimLast p1 ++ [c0])
          | c0 :: _ => Ok (if roomy then TrimLast p1 ++ [c0] else p1)
          end
      end)
  end.

(** transforms/join.go:125-158 [JoinTransform.PathTransform] *)
Definition JoinT (fuel : nat) (roomy : bool) (closePath : bool) (prec : nat) (pth : path N) : res (path N) :=
  bind (Dedup prec pth) (fun p =>
  bind (Reorder prec p) (fun p =>
  bind (join fuel prec [] p) (fun p =>
  if closePath then bind (closeStep roomy p) (fun p' => Ok (NewPathFromSegments p'))
  else Ok (NewPathFromSegments p)))).

(** transforms/join.go:168-180, one later path appended to newPath *)
Definition simpleJoinOne (newPath : path N) (q : path N) : path N :=
  match q with
  | [] => newPath
  | s :: _ =>
      let mv := match Tail newPath with
                | None => []
                | Some prev => if ptEquals (send prev) (send s) then []
                               else [Move (send prev) (clonePt (send s))]
                end in
      newPath ++ mv ++ clonePath q
  end.

(** transforms/join.go:163-183 [SimpleJoin.JoinPaths]; paths[0] of no arguments panics *)
Definition JoinPaths (ps : list (path N)) : res (path N) :=
  match ps with
  | [] => Panic
  | p :: r => Ok (fold_left simpleJoinOne r (clonePath p))
  end.

(** transforms/slice.go:40-91: the classification and the kept segments; comparisons by PrecisionCompare *)
Definition geP (a b : F) (prec : nat) : bool := Z.geb (PrecisionCompare a b (Z.of_nat prec)) 0.
Definition leP (a b : F) (prec : nat) : bool := Z.leb (PrecisionCompare a b (Z.of_nat prec)) 0.

(** transforms/slice.go:46-90: true = removed (isAbove = 1) *)
Definition sliceRemoved (y : F) (prec : nat) (g : seg) : res bool :=
  let ys := match g with
            | Curve s cs e ce => [py s; py e; py cs; py ce]
            | _ => [py (sstart g); py (send g)]
            end in
  if forallb (fun a => geP a y prec) ys then Ok true
  else if forallb (fun a => leP a y prec) ys then Ok false
  else bind (segBox co g) (fun '(tl, _) => Ok (geP (py tl) y prec)).

Fixpoint slice_filter (y : F) (prec : nat) (l : list seg) : res (list seg) :=
  match l with
  | [] => Ok []
  | g :: r => bind (sliceRemoved y prec g) (fun b =>
              bind (slice_filter y prec r) (fun k => Ok (if b then k else g :: k)))
  end.

Fixpoint knifeAll (fuel : nat) (knife : seg) (l : list seg) : res (list seg) :=
  match l with
  | [] => Ok []
  | g :: r => bind (KnifeCut co dop fuel g knife) (fun a =>
              bind (knifeAll fuel knife r) (fun b => Ok (a ++ b)))
  end.

(** transforms/slice.go:15-96 [HSliceTransform.PathTransform] *)
Definition HSlice (fuel : nat) (y : F) (prec : nat) (p : path N) : res (path N) :=
  bind (BoundingBoxWithWhitespace co p) (fun '(tl, br) =>
  let knife := Line (NewPoint (px tl) y) (NewPoint (px br) y) in
  bind (knifeAll fuel knife p) (fun cut =>
  bind (slice_filter y prec cut) (fun kept =>
  Ok (Cleanup prec (NewPathFromSegmentsWithoutMove kept))))).

End Transforms.
