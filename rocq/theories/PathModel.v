(** Model of package path: points, segments, paths, structural helpers
    (path/path.go, path/util.go) and MultiTransform (path/transforms.go). *)
From Coq Require Import List ZArith NArith String Ascii Bool.
From Verif Require Import Num.
Import ListNotations.
Local Open Scope num_scope.

Section Path.
Context {N : Num}.
Notation F := (T N).

(** path/path.go:15-21 [Point].  Simplification: the unexported field [t] (a curve parameter
    remembered by intersection results and read only by getTfromPoint,
    path/segment_operators.go:543-550) is not part of the point; where it matters
    ([SegOps.v]) intersection results carry it explicitly. *)
Record Pt := mkPt { px : F; py : F }.

(** path/path.go:337-347 [NewPoint]: both zeros become +0 *)
Definition norm0 (x : F) : F := if eqb x zero then zero else x.
Definition NewPoint (x y : F) : Pt := mkPt (norm0 x) (norm0 y).

(** the Go zero value of [Point] *)
Definition zeroPt : Pt := mkPt zero zero.

(** path/path.go:391-393 [Point.Clone] *)
Definition clonePt (p : Pt) : Pt := NewPoint (px p) (py p).

(** path/path.go:378-380 [Point.Equals] *)
Definition ptEquals (p q : Pt) : bool := eqb (px p) (px q) && eqb (py p) (py q).

(** path/path.go:29-53: the three segment types of the interface [Segment] *)
Inductive seg : Type :=
| Move (s e : Pt)
| Line (s e : Pt)
| Curve (s cs e ce : Pt).

(** path/path.go:150, 181, 283 [Start]; 158, 188, 292 [End] *)
Definition sstart (g : seg) : Pt :=
  match g with Move s _ => s | Line s _ => s | Curve s _ _ _ => s end.
Definition send (g : seg) : Pt :=
  match g with Move _ e => e | Line _ e => e | Curve _ _ e _ => e end.

(** path/util.go:220-223 [IsMove] *)
Definition isMove (g : seg) : bool := match g with Move _ _ => true | _ => false end.

(** path/path.go:162-167, 263-268, 296-303 [Clone] *)
Definition cloneSeg (g : seg) : seg :=
  match g with
  | Move s e => Move (clonePt s) (clonePt e)
  | Line s e => Line (clonePt s) (clonePt e)
  | Curve s cs e ce => Curve (clonePt s) (clonePt cs) (clonePt e) (clonePt ce)
  end.

(** path/path.go:100-113 [SetSegmentStart]; the error branch is unreachable for the three types *)
Definition setStart (g : seg) (p : Pt) : seg :=
  match g with
  | Move _ e => Move p e
  | Line _ e => Line p e
  | Curve _ cs e ce => Curve p cs e ce
  end.

(** A [Path] (path/path.go:23-27, 123-149) is its list of segments. *)
Local Notation path := (list seg).

(** path/path.go:141-149 [PathImpl.Clone] *)
Definition clonePath (p : path) : path := map cloneSeg p.

(** path/util.go:206-217 [FixHeadMove] *)
Definition FixHeadMove (l : path) : path :=
  match l with
  | Move s e :: r =>
      if negb (eqb (px s) zero) || negb (eqb (py s) zero)
      then Move zeroPt e :: r else l
  | _ => l
  end.

(** path/path.go:62-69 [NewPathFromSegmentsWithoutMove] *)
Definition NewPathFromSegmentsWithoutMove (l : list seg) : path := FixHeadMove l.

(** path/path.go:71-87 [NewPathFromSegments] *)
Definition NewPathFromSegments (l : list seg) : path :=
  FixHeadMove
    match l with
    | [] => []
    | g :: _ => if isMove g then l else Move (NewPoint zero zero) (sstart g) :: l
    end.

(** path/util.go:169-181 [HeadMove] *)
Definition HeadMove (l : list seg) : list seg :=
  match l with
  | [] => []
  | g :: _ => if isMove g then l else Move (NewPoint zero zero) (sstart g) :: l
  end.

(** path/util.go:141-146 [Tail] *)
Fixpoint Tail (l : list seg) : option seg :=
  match l with
  | [] => None
  | [g] => Some g
  | _ :: r => Tail r
  end.

(** path/util.go:150-155 [TrimLast], 156-161 [TrimFirst] *)
Definition TrimLast (l : list seg) : list seg := removelast l.
Definition TrimFirst (l : list seg) : list seg := tl l.

(** path/util.go:165-167 [PathCursor]: method call on the nil segment panics on an empty path *)
Definition PathCursor (p : path) : res Pt :=
  match Tail p with None => Panic | Some g => Ok (send g) end.

(** path/util.go:184-192 [TrimTailMove]: drops moves from the end, one recursive call per move.
    Written on the reversed list. *)
Fixpoint dropMoves (l : list seg) : list seg :=
  match l with
  | [] => []
  | g :: r => if isMove g then dropMoves r else l
  end.
Definition TrimTailMove (l : list seg) : list seg := rev (dropMoves (rev l)).

(** path/util.go:195-203 [TrimMove] *)
Fixpoint TrimMove (l : list seg) : list seg :=
  match l with
  | [] => []
  | g :: r => if isMove g then TrimMove r else TrimTailMove l
  end.

(** path/util.go:351-356 [GetStartAndEnd] (the first component is the END of the first segment) *)
Definition GetStartAndEnd (l : list seg) : Pt * Pt :=
  match l with
  | [] => (zeroPt, zeroPt)
  | g :: _ => (send g, send (last l g))
  end.

(** path/util.go:411-418 [IsEmptyPath] *)
Definition IsEmptyPath (p : path) : bool := forallb isMove p.

(** path/util.go:227-231 [Distance] *)
Definition Distance (p q : Pt) : F :=
  let x := px p - px q in
  let y := py p - py q in
  nsqrt (x * x + y * y).

(** path/util.go:380-388 [PrecisionEquals] *)
Definition PrecisionEquals (a b : F) (precision : Z) : bool :=
  if Z.ltb precision 0 then eqb a b
  else String.eqb (fmt (Z.to_nat precision) a) (fmt (Z.to_nat precision) b).

(** path/util.go:370-377 [PrecisionCompare] *)
Definition PrecisionCompare (a b : F) (precision : Z) : Z :=
  if PrecisionEquals a b precision then 0%Z
  else if ltb a b then (-1)%Z else 1%Z.

(** path/path.go:368-370 [StringPrecision] *)
Definition StringPrecision (p : Pt) (n : nat) : string :=
  ("(X: " ++ fmt n (px p) ++ ", Y: " ++ fmt n (py p) ++ ")")%string.

(** path/path.go:384-389 [EqualsPrecision] *)
Definition EqualsPrecision (p q : Pt) (precision : Z) : bool :=
  if Z.ltb precision 0 then ptEquals p q
  else String.eqb (StringPrecision p (Z.to_nat precision)) (StringPrecision q (Z.to_nat precision)).

(** path/path.go:173-180, 274-281, 315-326 [UniqueString] *)
Definition ptText (n : nat) (p : Pt) : string :=
  ("(" ++ fmt n (px p) ++ ", " ++ fmt n (py p) ++ ")")%string.
Definition UniqueString (n : nat) (g : seg) : string :=
  match g with
  | Move s e => ("MOVE " ++ ptText n s ++ " " ++ ptText n e)%string
  | Line s e => ("LINE " ++ ptText n s ++ " " ++ ptText n e)%string
  | Curve s cs e ce =>
      ("CURVE " ++ ptText n s ++ " " ++ ptText n cs ++ " " ++ ptText n ce ++ " " ++ ptText n e)%string
  end.

(** path/path.go:169-171, 270-272, 305-313 [SvgString] of a segment *)
Definition xyText (n : nat) (p : Pt) : string := (fmt n (px p) ++ " " ++ fmt n (py p))%string.
Definition segSvg (n : nat) (g : seg) : string :=
  match g with
  | Move _ e => ("M " ++ xyText n e)%string
  | Line _ e => ("L " ++ xyText n e)%string
  | Curve _ cs e ce => ("C " ++ xyText n cs ++ " " ++ xyText n ce ++ " " ++ xyText n e)%string
  end.

(** path/path.go:115-121 [SvgString] of a path *)
Definition SvgString (p : path) (n : nat) : string := String.concat " " (map (segSvg n) p).

(** path/util.go:255-260 [PrecisionPointInBoundingBox] *)
Definition PrecisionPointInBoundingBox (tl br p : Pt) (precision : Z) : bool :=
  Z.geb (PrecisionCompare (px p) (px tl) precision) 0 &&
  Z.leb (PrecisionCompare (px p) (px br) precision) 0 &&
  Z.geb (PrecisionCompare (py p) (py tl) precision) 0 &&
  Z.leb (PrecisionCompare (py p) (py br) precision) 0.

(** path/util.go:264-267 [PointInBoundingBox] *)
Definition PointInBoundingBox (tl br p : Pt) : bool :=
  geb (px p) (px tl) && leb (px p) (px br) && geb (py p) (py tl) && leb (py p) (py br).

(** path/util.go:338-345 [Float64ArrayContains]: compares [x == n] *)
Definition Float64ArrayContains (a : list F) (x : F) : bool := existsb (fun n => eqb x n) a.

(** path/util.go:331-336 [Float64ArrayInsertIfAbsent] *)
Definition Float64ArrayInsertIfAbsent (a : list F) (x : F) : list F :=
  if Float64ArrayContains a x then a else a ++ [x].

(** path/util.go:305-315 [Float64ArrayDeDup]; the Go map [keys] is represented by the list
    of keys inserted so far; a Go map finds a float key by [==], so a NaN key is never found *)
Fixpoint Float64ArrayDeDup_loop (keys : list F) (a : list F) : list F :=
  match a with
  | [] => []
  | x :: r => if existsb (fun k => eqb k x) keys then Float64ArrayDeDup_loop keys r
              else x :: Float64ArrayDeDup_loop (x :: keys) r
  end.
Definition Float64ArrayDeDup (a : list F) : list F := Float64ArrayDeDup_loop [] a.

End Path.

Arguments Pt : clear implicits.
Arguments seg : clear implicits.
Notation path N := (list (seg N)).

(** path/util.go:318-328 [StringArrayDeDup] *)
Fixpoint StringArrayDeDup_loop (keys : list string) (a : list string) : list string :=
  match a with
  | [] => []
  | x :: r => if existsb (String.eqb x) keys then StringArrayDeDup_loop keys r
              else x :: StringArrayDeDup_loop (x :: keys) r
  end.
Definition StringArrayDeDup (a : list string) : list string := StringArrayDeDup_loop [] a.

(** path/util.go:421-427 [StringElipses] (byte length; slicing with a negative bound panics) *)
Definition StringElipses (s : string) (maxChars : Z) : res string :=
  if Z.ltb maxChars (Z.of_nat (String.length s)) then
    if Z.ltb (maxChars - 3) 0 then Panic
    else Ok (String.substring 0 (Z.to_nat (maxChars - 3)) s ++ "...")%string
  else Ok s.

(** path/transforms.go:18-28 [MultiTransform]; a transform is any function on paths *)
Fixpoint MultiTransform {P : Type} (p : P) (ts : list (P -> res P)) : res P :=
  match ts with
  | [] => Ok p
  | t :: r => bind (t p) (fun p' => MultiTransform p' r)
  end.
