(** Model of how an SVG file becomes a path (parser/svgparser.go).  The input is the sequence of tokens that Go's xml.Decoder returns, and whether it ends with a syntax
    error or with the end of the file; the decoder itself is not modelled.  Tokens: the start and the end of an element, text, and the others (comments, declarations,
    directives).  A name is its name space and its local name. *)
From Coq Require Import String Ascii List ZArith Bool.
From Verif Require Import Num PathModel DynModel SvgElement.
Import ListNotations.
Local Open Scope string_scope.

Notation xname := (string * string)%type.
Inductive token : Type := TStart (n : xname) (attrs : list (xname * string)) | TEnd (n : xname) | TChars (s : string) | TOther.
(** what the decoder returns: tokens, then an error ([true]) or io.EOF *)
Notation stream := (list token * bool)%type.

(** parser/svgparser.go:37-42 [Element], with the text *)
Inductive xelem : Type := XElem (name : string) (attrs : list (string * string)) (children : list xelem) (content : string).
(** what the rest of the parser looks at (SvgElement.v): not the text *)
Fixpoint asElement (x : xelem) : element := match x with XElem n a k _ => Elem n a (map asElement k) end.

(** parser/svgparser.go:237-246 [NewElement] *)
Definition NewElement (n : xname) (attrs : list (xname * string)) : xelem := XElem (snd n) (fold_left (fun m a => set (snd (fst a)) (snd a) m) attrs []) [] "".

(** parser/svgparser.go:272-289 [DecodeFirst]: the first element and the rest; without one an element without name whose attributes are nil *)
Fixpoint DecodeFirst (ts : list token) (broken : bool) : res (option xelem * list token) :=
  match ts with
  | [] => if broken then Err else Ok (None, [])
  | TStart n a :: r => Ok (Some (NewElement n a), r)
  | _ :: r => DecodeFirst r broken
  end.

(** parser/svgparser.go:292-326 [Decode]; [fuel] bounds the steps *)
Fixpoint Decode (fuel : nat) (e : xelem) (ts : list token) (broken : bool) : res (xelem * list token) :=
  match fuel with
  | O => OutOfFuel
  | S f =>
      match e with
      | XElem name attrs ks content =>
          match ts with
          | [] => if broken then Err else Ok (e, [])
          | TStart n a :: r => bind (Decode f (NewElement n a) r broken) (fun x => Decode f (XElem name attrs (ks ++ [fst x])%list content) (snd x) broken)
          | TChars s :: r => Decode f (if String.eqb (trim s) "" then e else XElem name attrs ks s) r broken
          | TEnd n :: r => if String.eqb (snd n) name then Ok (e, r) else Decode f e r broken
          | TOther :: r => Decode f e r broken
          end
      end
  end.

(** parser/svgparser.go:329-344 [Parse]; [None] inside: the element without attributes *)
Definition Parse (s : stream) : res (option xelem) :=
  bind (DecodeFirst (fst s) (snd s)) (fun x =>
    match fst x with
    | Some e => bind (Decode (S (List.length (snd x))) e (snd x) (snd s)) (fun y => Ok (Some (fst y)))
    | None => Ok None
    end).

Section Import.
Context {N : Num}.
(** parser/svgparser.go:25-32 [ParseSVG]: the error of Parse is overwritten, so the element is nil then and its name is read through the nil pointer; an element without
    attributes has no children either, so that joining their paths fails (C13) *)
Definition ParseSVG (s : stream) : res (path N) :=
  match Parse s with
  | Ok (Some e) => ElementToPath (asElement e)
  | Ok None => Panic
  | Err => Panic
  | Panic => Panic
  | OutOfFuel => OutOfFuel
  end.
End Import.

(** parser/svgparser.go:249-269 [Compare]; the attributes are maps of strings *)
Fixpoint Compare (e o : xelem) {struct e} : bool :=
  match e, o with
  | XElem n a k c, XElem n' a' k' c' =>
      if negb (String.eqb n n') || negb (String.eqb c c') || negb (Nat.eqb (List.length a) (List.length a')) || negb (Nat.eqb (List.length k) (List.length k')) then false
      else forallb (fun kv => match lookup (fst kv) a' with Some w => String.eqb (snd kv) w | None => false end) a &&
           (fix all (k k' : list xelem) : bool := match k, k' with x :: r, y :: r' => Compare x y && all r r' | _, _ => true end) k k'
  end.
