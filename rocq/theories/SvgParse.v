(** Model of path/path_parser.go (SVG path text to a path), of dynmap.ToFloat64 on strings
    (dynmap/typecast.go:69-84) and of transforms/rebuild.go. *)
From Coq Require Import String Ascii List ZArith NArith Bool.
From Verif Require Import Num PathModel DrawModel.
Import ListNotations.
Local Open Scope string_scope.

(** character classes *)
Definition isDigit (c : ascii) : bool :=
  let n := N_of_ascii c in N.leb 48 n && N.leb n 57.
Definition isAlpha (c : ascii) : bool :=
  let n := N_of_ascii c in (N.leb 65 n && N.leb n 90) || (N.leb 97 n && N.leb n 122).
(** the class [0-9\.] of both regular expressions, path/path_parser.go:49, 52 *)
Definition isNumCh (c : ascii) : bool := isDigit c || Ascii.eqb c ".".

(** path/path_parser.go:43-46: comma, newline, tab and carriage return become spaces *)
Fixpoint blanks (s : string) : string :=
  match s with
  | "" => ""
  | String c r =>
      let c' := if Ascii.eqb c "," || Ascii.eqb c "010" || Ascii.eqb c "009" || Ascii.eqb c "013"
                then " "%char else c in
      String c' (blanks r)
  end.

(** path/path_parser.go:49-50: "([[:alpha:]])([0-9\.]+)" replaced by "$1 $2".  The matches are
    disjoint and each letter directly followed by a digit or dot starts one, so the
    effect is a space inserted at every such place. *)
Fixpoint spaceAfterCmd (s : string) : string :=
  match s with
  | "" => ""
  | String c r =>
      match r with
      | String d _ => if isAlpha c && isNumCh d then String c (String " " (spaceAfterCmd r))
                      else String c (spaceAfterCmd r)
      | "" => String c ""
      end
  end.

(** path/path_parser.go:52-53: "([0-9\.]+)([[:alpha:]])" replaced by "$1 $2" *)
Fixpoint spaceBeforeCmd (s : string) : string :=
  match s with
  | "" => ""
  | String c r =>
      match r with
      | String d _ => if isNumCh c && isAlpha d then String c (String " " (spaceBeforeCmd r))
                      else String c (spaceBeforeCmd r)
      | "" => String c ""
      end
  end.

(** path/path_parser.go:55-60: split on the space and drop empty elements. The
    current element is built from the right. *)
Fixpoint items_loop (s : string) : string * list string :=
  match s with
  | "" => ("", [])
  | String c r =>
      let '(cur, rest) := items_loop r in
      if Ascii.eqb c " " then ("", match cur with "" => rest | _ => cur :: rest end)
      else (String c cur, rest)
  end.
Definition items (s : string) : list string :=
  let '(cur, rest) := items_loop s in match cur with "" => rest | _ => cur :: rest end.

(** the whole normalisation, path/path_parser.go:43-60 *)
Definition normalise (s : string) : list string := items (spaceBeforeCmd (spaceAfterCmd (blanks s))).

(** A parsed number: special value, or (-)m * 10^e. *)
Inductive numtext := NTspecial (t : ftext) | NTdec (neg : bool) (m : N) (e : Z).

Definition digitVal (c : ascii) : N := N_of_ascii c - 48.

(** digits starting with accumulator [v]; returns value, number of digits read, rest *)
Fixpoint readDigits (s : string) (v : N) (k : nat) : N * nat * string :=
  match s with
  | String c r => if isDigit c then readDigits r (v * 10 + digitVal c)%N (S k) else (v, k, s)
  | "" => (v, k, s)
  end.

Definition lowerCh (c : ascii) : ascii :=
  let n := N_of_ascii c in if N.leb 65 n && N.leb n 90 then ascii_of_N (n + 32) else c.
Fixpoint lower (s : string) : string :=
  match s with "" => "" | String c r => String (lowerCh c) (lower r) end.

(** strconv.ParseFloat's syntax without hexadecimal floats: an unsigned decimal with optional exponent *)
Definition readUnsigned (neg : bool) (s : string) : option numtext :=
  let '(v1, k1, r1) := readDigits s 0 0 in
  let '(v2, k2, r2) :=
    match r1 with
    | String "." r => readDigits r v1 0
    | _ => (v1, O, r1)
    end in
  if Nat.eqb (k1 + k2) 0 then None
  else
    match r2 with
    | "" => Some (NTdec neg v2 (- Z.of_nat k2))
    | String c r =>
        if Ascii.eqb c "e" || Ascii.eqb c "E" then
          let '(eneg, r') := match r with
                             | String "-" t => (true, t)
                             | String "+" t => (false, t)
                             | _ => (false, r)
                             end in
          let '(ev, ek, er) := readDigits r' 0 0 in
          if Nat.eqb ek 0 then None
          else match er with
               | "" => Some (NTdec neg v2 ((if eneg then - Z.of_N ev else Z.of_N ev) - Z.of_nat k2))
               | _ => None
               end
        else None
    end.

Definition isInfWord (s : string) : bool := String.eqb s "inf" || String.eqb s "infinity".

(** strconv.ParseFloat, syntax level *)
Definition readNumber (s : string) : option numtext :=
  match s with
  | String "-" r => if isInfWord (lower r) then Some (NTspecial (FTinf true)) else readUnsigned true r
  | String "+" r => if isInfWord (lower r) then Some (NTspecial (FTinf false)) else readUnsigned false r
  | _ => if isInfWord (lower s) then Some (NTspecial (FTinf false))
         else if String.eqb (lower s) "nan" then Some (NTspecial FTnan)
         else readUnsigned false s
  end.

Section Parse.
Context {N : Num}.
Notation F := (T N).
Notation P := (Pt N).

(** dynmap/typecast.go:75-77: strconv.ParseFloat(strings.TrimSpace(v), 64); the items of a path contain
    no ASCII blank, so TrimSpace only matters for exotic Unicode spaces, which are not modelled *)
Definition ToFloat64 (s : string) : option F :=
  match readNumber s with
  | None => None
  | Some (NTspecial t) => ofspecial t
  | Some (NTdec neg m e) => ofdec neg m e
  end.

(** path/path_parser.go:166-180 [getNextFloats] for the [k] items after the command;
    returns the values and the remaining items *)
Fixpoint getNextFloats (k : nat) (its : list string) : option (list F * list string) :=
  match k with
  | O => Some ([], its)
  | S k' =>
      match its with
      | [] => None
      | i :: r =>
          match ToFloat64 i with
          | None => None
          | Some x => match getNextFloats k' r with
                      | None => None
                      | Some (xs, r') => Some (x :: xs, r')
                      end
          end
      end
  end.

(** path/path_parser.go:74-164 [next]: one command; only the first character of the item is looked at.
    The index arithmetic of the code (index+3, +5, +7) is the remaining list here. *)
Definition next (its : list string) (d : path N) : res (list string * path N) :=
  match its with
  | [] => Ok ([], d)
  | op :: r =>
      match op with
      | "" => Panic        (* [0] of an empty item; items never contains one *)
      | String c _ =>
          match c with
          | "M"%char => match getNextFloats 2 r with
                   | Some ([x; y], r') => Ok (r', MoveTo d (NewPoint x y))
                   | _ => Err end
          | "m"%char => match getNextFloats 2 r with
                   | Some ([x; y], r') => Ok (r', RelMoveTo d (NewPoint x y))
                   | _ => Err end
          | "L"%char => match getNextFloats 2 r with
                   | Some ([x; y], r') => Ok (r', LineTo d (NewPoint x y))
                   | _ => Err end
          | "l"%char => match getNextFloats 2 r with
                   | Some ([x; y], r') => Ok (r', RelLineTo d (NewPoint x y))
                   | _ => Err end
          | "C"%char => match getNextFloats 6 r with
                   | Some ([a; b; c; e; x; y], r') =>
                       Ok (r', CurveTo d (NewPoint a b) (NewPoint c e) (NewPoint x y))
                   | _ => Err end
          | "c"%char => match getNextFloats 6 r with
                   | Some ([a; b; c; e; x; y], r') =>
                       Ok (r', RelCurveTo d (NewPoint a b) (NewPoint c e) (NewPoint x y))
                   | _ => Err end
          | "S"%char => match getNextFloats 4 r with
                   | Some ([a; b; x; y], r') => Ok (r', SmoothCurveTo d (NewPoint a b) (NewPoint x y))
                   | _ => Err end
          | "s"%char => match getNextFloats 4 r with
                   | Some ([a; b; x; y], r') => Ok (r', RelSmoothCurveTo d (NewPoint a b) (NewPoint x y))
                   | _ => Err end
          | "Z"%char => Ok (r, d)
          | _ => Err
          end
      end
  end.

(** path/path_parser.go:62-71, the loop; every command consumes at least one item *)
Fixpoint parse_loop (fuel : nat) (its : list string) (d : path N) : res (path N) :=
  match its with
  | [] => Ok d
  | _ => match fuel with
         | O => OutOfFuel
         | S f => bind (next its d) (fun '(r, d') => parse_loop f r d')
         end
  end.

(** path/path_parser.go:37-72 [ParsePathFromSvg] *)
Definition ParsePathFromSvg (s : string) : res (path N) :=
  let its := normalise s in parse_loop (List.length its) its NewDraw.

(** transforms/rebuild.go:13-16 [RebuildTransform.PathTransform] *)
Definition Rebuild (p : path N) : res (path N) := ParsePathFromSvg (SvgString p 7).

End Parse.
