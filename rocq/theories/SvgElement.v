(** Model of the conversion of SVG elements into paths (parser/svgparser.go).  The XML decoder is not modelled: an element is its name,
    its attributes and its children. *)
From Coq Require Import String Ascii List ZArith NArith Bool.
From Verif Require Import Num PathModel DrawModel SegOps TransformsModel SvgParse GeomTransforms.
Import ListNotations.
Local Open Scope string_scope.
Local Open Scope list_scope.

(** parser/svgparser.go:36-41 [Element]; the attributes of a dynmap of texts, each name once.  The text content is not used in the conversion. *)
Inductive element : Type := Elem (name : string) (attrs : list (string * string)) (children : list element).
Definition e_name (e : element) : string := let 'Elem n _ _ := e in n.
Definition e_attrs (e : element) : list (string * string) := let 'Elem _ a _ := e in a.

(** dynmap/dynmap.go:725-753 [Get] for names without dots, the only ones asked for *)
Fixpoint attrOf (k : string) (l : list (string * string)) : option string :=
  match l with [] => None | (k', v) :: r => if String.eqb k k' then Some v else attrOf k r end.
(** dynmap/dynmap.go:364-370 [MustString] with default "" (an empty text is the default) *)
Definition mustString (l : list (string * string)) (k : string) : string := match attrOf k l with Some v => v | None => "" end.

(** the class \s of Go's regular expressions: tab, newline, form feed, carriage return, space *)
Definition isSpace (c : ascii) : bool := Ascii.eqb c " " || Ascii.eqb c "009" || Ascii.eqb c "010" || Ascii.eqb c "012" || Ascii.eqb c "013".
(** strings.TrimSpace on ASCII text (which also knows the vertical tab) *)
Definition isBlank (c : ascii) : bool := isSpace c || Ascii.eqb c "011".
Fixpoint trimLeft (s : string) : string := match s with "" => "" | String c r => if isBlank c then trimLeft r else s end.
Fixpoint trimRight (s : string) : string :=
  match s with "" => "" | String c r => match trimRight r with "" => if isBlank c then "" else String c "" | t => String c t end end.
Definition trim (s : string) : string := trimRight (trimLeft s).

(** strings.Split(s, ") ") *)
Fixpoint splitClose (s : string) : list string :=
  match s with
  | "" => [""]
  | String c r =>
      let more := match splitClose r with [] => [String c ""] | w :: ws => String c w :: ws end in
      match r with
      | String d r' => if Ascii.eqb c ")" && Ascii.eqb d " " then "" :: splitClose r' else more
      | "" => more
      end
  end.
(** strings.Split(s, ",") *)
Fixpoint splitComma (s : string) : list string :=
  match s with
  | "" => [""]
  | String c r => if Ascii.eqb c "," then "" :: splitComma r
                  else match splitComma r with [] => [String c ""] | w :: ws => String c w :: ws end
  end.

(** parser/svgparser.go:59, 62: the pattern ([a-z]+)\s*\(([0-9,\s]+)$ and its submatches.  The classes of the parts are disjoint, so each part takes
    all it can and the match is at the first place where that works; the end anchor leaves room for one match. *)
Definition isLower (c : ascii) : bool := let n := N_of_ascii c in N.leb 97 n && N.leb n 122.
Fixpoint spanLower (s : string) : string * string :=
  match s with String c r => if isLower c then let '(a, b) := spanLower r in (String c a, b) else ("", s) | "" => ("", "") end.
Fixpoint skipSpaces (s : string) : string := match s with String c r => if isSpace c then skipSpaces r else s | "" => "" end.
Fixpoint allArgs (s : string) : bool := match s with "" => true | String c r => (isDigit c || Ascii.eqb c "," || isSpace c) && allArgs r end.
Definition matchHere (s : string) : option (string * string) :=
  let '(name, r) := spanLower s in
  match name with
  | "" => None
  | _ => match skipSpaces r with
         | String c args => if Ascii.eqb c "(" then match args with "" => None | _ => if allArgs args then Some (name, args) else None end else None
         | "" => None
         end
  end.
Fixpoint findTransform (s : string) : option (string * string) :=
  match matchHere s with
  | Some m => Some m
  | None => match s with "" => None | String _ r => findTransform r end
  end.

Section Elements.
Context {N : Num}.
Notation F := (T N).

(** dynmap/dynmap.go:303-313 [GetFloat64] with dynmap/typecast.go:69-77 *)
Definition floatOf (s : string) : option F := SvgParse.ToFloat64 (trim s).
Definition getFloat (l : list (string * string)) (k : string) : option F := match attrOf k l with Some v => floatOf v | None => None end.

Fixpoint floats (l : list string) : option (list F) :=
  match l with
  | [] => Some []
  | s :: r => match floatOf s with Some x => match floats r with Some xs => Some (x :: xs) | None => None end | None => None end
  end.

(** parser/svgparser.go:61-123, the loop over the transforms; line 62 matches the pattern against the constant text "t" *)
Fixpoint transformLoop (ts : list string) (pth : path N) : res (path N) :=
  match ts with
  | [] => Ok pth
  | t :: r =>
      match findTransform "t" with
      | None => transformLoop r pth
      | Some (name, args) =>
          match floats (splitComma args) with
          | None => Err
          | Some inputs =>
              if String.eqb name "matrix" then match inputs with a :: b :: c :: d :: e :: f :: _ => Ok (MatrixT (mkMatrix a b c d e f) pth) | _ => Err end
              else if String.eqb name "scale" then match inputs with [] => Err | _ => Ok pth end
              else if String.eqb name "rotate" || String.eqb name "scewX" || String.eqb name "scewY" then match inputs with [_] => Ok pth | _ => Err end
              else transformLoop r pth
          end
      end
  end.

(** parser/svgparser.go:44-126 [ElementToPath] and 128-236 [elementToPathNoTransforms].  Errors lose the partial path; the log is not modelled. *)
Fixpoint ElementToPath (e : element) : res (path N) :=
  match e with
  | Elem name attrs children =>
      bind (if String.eqb name "path" then ParsePathFromSvg (mustString attrs "d")
            else if String.eqb name "circle" then
              match getFloat attrs "cx", getFloat attrs "cy", getFloat attrs "r" with
              | Some cx, Some cy, Some r => Ok (Circle (MoveTo NewDraw (NewPoint (cx - r) (cy - r))%num) r)
              | _, _, _ => Err
              end
            else if String.eqb name "rect" then
              match getFloat attrs "x", getFloat attrs "y", getFloat attrs "width", getFloat attrs "height" with
              | Some x, Some y, Some w, Some h => Ok (Rect (MoveTo NewDraw (NewPoint x y)) w h)
              | _, _, _, _ => Err
              end
            else if String.eqb name "elipse" || String.eqb name "polyline" || String.eqb name "polygon" then Err
            else if String.eqb name "line" then
              match getFloat attrs "x1", getFloat attrs "y1", getFloat attrs "x2", getFloat attrs "y2" with
              | Some x1, Some y1, Some x2, Some y2 => Ok (LineTo (MoveTo NewDraw (NewPoint x1 y1)) (NewPoint x2 y2))
              | _, _, _, _ => Err
              end
            else
              bind ((fix all (l : list element) : res (list (path N)) :=
                       match l with [] => Ok [] | c :: r => bind (ElementToPath c) (fun p => bind (all r) (fun ps => Ok (p :: ps))) end) children)
                   JoinPaths)
        (fun pth =>
          match mustString attrs "transform" with
          | "" => Ok pth
          | t => transformLoop (splitClose t) pth
          end)
  end.
End Elements.
