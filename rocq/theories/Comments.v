(** Model of the comments that a document may contain: what [dynmap.ParseJSON] takes out of a text before it is read as JSON. *)
From Coq Require Import String Ascii.
Local Open Scope string_scope.

(** The two letters that a line and a block end with. *)
Definition newline : ascii := "010"%char.

(** dynmap/dynmap.go:35 the first alternative, [//.*?\n]: what follows the first end of line. The expression has the flag s, under which a dot matches any byte. *)
Fixpoint afterLine (s : string) : option string :=
  match s with "" => None | String c r => if Ascii.eqb c newline then Some r else afterLine r end.
(** dynmap/dynmap.go:35 the second alternative, [/\*.*?\*/]: what follows the first "*/". *)
Fixpoint afterBlock (s : string) : option string :=
  match s with
  | "" => None
  | String c r => match r with String d r' => if andb (Ascii.eqb c "*") (Ascii.eqb d "/") then Some r' else afterBlock r | "" => None end
  end.
(** dynmap/dynmap.go:35 a match of the expression at the start of a text: what follows it. *)
Definition afterComment (s : string) : option string :=
  match s with
  | String c (String d r) => if Ascii.eqb c "/" then if Ascii.eqb d "/" then afterLine r else if Ascii.eqb d "*" then afterBlock r else None else None
  | _ => None
  end.
(** dynmap/dynmap.go:36 ReplaceAll with nothing: the leftmost matches that do not overlap are left out. Simplified: the first argument only bounds the recursion, every letter needs one. *)
Fixpoint stripN (n : nat) (s : string) : string :=
  match n, s with
  | S n, String c r => match afterComment s with Some r' => stripN n r' | None => String c (stripN n r) end
  | _, _ => s
  end.
(** dynmap/dynmap.go:33-36 the text that ParseJSON unmarshals. *)
Definition Strip (s : string) : string := stripN (length s) s.
