(** Model of how maps are written as JSON and read from it: dynmap/dynmap.go and, of the library encoding/json, what it uses.  Texts are bytes, as in Go. *)
From Coq Require Import String Ascii List NArith Bool.
From Verif Require Import Num DynModel Comments.
Import ListNotations.
Local Open Scope string_scope.
Local Open Scope N_scope.

(** What a JSON text stands for (map[string]interface{} and []interface{}); the entries of a map in the order in which [range] visits them. [A] are the numbers. *)
Inductive jv (A : Type) : Type :=
| JNull | JBool (b : bool) | JNum (x : A) | JText (s : string) | JList (l : list (jv A)) | JMap (l : list (string * jv A)).
Arguments JNull {A}. Arguments JBool {A}. Arguments JNum {A}. Arguments JText {A}. Arguments JList {A}. Arguments JMap {A}.

(** The numbers (float64), how strconv.FormatFloat writes one with as many digits as it takes and how strconv.ParseFloat reads one (not if it is out of range); [jfinite] is false for
    NaN and the infinities, which JSON cannot write. *)
Record NumText : Type := mkNumText { jnum :> Type; jfinite : jnum -> bool; jshow : jnum -> string; jread : string -> option jnum }.

(** *** bytes *)
Definition code (c : ascii) : N := N_of_ascii c.
Definition between (a b : N) (c : ascii) : bool := (a <=? code c) && (code c <=? b).
Definition quote : ascii := """"%char.
Definition backslash : ascii := "\"%char.
(** unicode/utf8 DecodeRune: how many bytes the character at the start of the text takes, and 0 if there is none *)
Definition runeLen (s : string) : nat :=
  match s with
  | "" => 0%nat
  | String a r =>
      if code a <? 128 then 1%nat else
      match r with
      | "" => 0%nat
      | String b r2 =>
          if between 194 223 a then if between 128 191 b then 2%nat else 0%nat else
          if between 224 239 a then
            if between (if code a =? 224 then 160 else 128) (if code a =? 237 then 159 else 191) b then
              match r2 with String c _ => if between 128 191 c then 3%nat else 0%nat | "" => 0%nat end else 0%nat else
          if between 240 244 a then
            if between (if code a =? 240 then 144 else 128) (if code a =? 244 then 143 else 191) b then
              match r2 with String c (String d _) => if between 128 191 c && between 128 191 d then 4%nat else 0%nat | _ => 0%nat end else 0%nat else 0%nat
      end
  end.
(** unicode/utf8 EncodeRune, for code points that are not surrogates *)
Definition encodeRune (n : N) : string :=
  if n <? 128 then String (ascii_of_N n) ""
  else if n <? 2048 then String (ascii_of_N (192 + n / 64)) (String (ascii_of_N (128 + n mod 64)) "")
  else if n <? 65536 then String (ascii_of_N (224 + n / 4096)) (String (ascii_of_N (128 + n / 64 mod 64)) (String (ascii_of_N (128 + n mod 64)) ""))
  else String (ascii_of_N (240 + n / 262144)) (String (ascii_of_N (128 + n / 4096 mod 64)) (String (ascii_of_N (128 + n / 64 mod 64)) (String (ascii_of_N (128 + n mod 64)) ""))).
Definition replacement : string := encodeRune 65533.

(** *** writing *)
(** a hexadecimal digit *)
Definition hexDigit (n : N) : ascii := ascii_of_N (if n <? 10 then 48 + n else 87 + n).
(** encoding/json, the bytes written as they are: printable and not one of the quote, the backslash, <, > and & *)
Definition safe (c : ascii) : bool := between 32 127 c && negb (Ascii.eqb c quote || Ascii.eqb c backslash || Ascii.eqb c "<" || Ascii.eqb c ">" || Ascii.eqb c "&").
(** encoding/json, the other bytes below 128.  (Newer versions of the library write \b and \f for two more of them, which are read alike.) *)
Definition escaped (c : ascii) : string :=
  if Ascii.eqb c quote || Ascii.eqb c backslash then String backslash (String c "")
  else if code c =? 10 then "\n" else if code c =? 13 then "\r" else if code c =? 9 then "\t"
  else "\u00" ++ String (hexDigit (code c / 16)) (String (hexDigit (code c mod 16)) "").
(** the line and the paragraph separator, U+2028 and U+2029, are escaped too *)
Definition separator (s : string) : option ascii :=
  match s with
  | String a (String b (String c _)) => if (code a =? 226) && (code b =? 128) then if code c =? 168 then Some "8"%char else if code c =? 169 then Some "9"%char else None else None
  | _ => None
  end.
(** the inside of a text literal; [n] bytes of the last character are still to come and written if [keep] *)
Fixpoint escape (keep : bool) (n : nat) (s : string) : string :=
  match s with
  | "" => ""
  | String c r =>
      match n with
      | S n => if keep then String c (escape keep n r) else escape keep n r
      | O =>
          if code c <? 128 then (if safe c then String c "" else escaped c) ++ escape true 0 r
          else match runeLen s, separator s with
               | O, _ => "\u" ++ "fffd" ++ escape true 0 r
               | S n, Some d => "\u202" ++ String d (escape false n r)
               | S n, None => String c (escape true n r)
               end
      end
  end.
Definition quoted (s : string) : string := String quote (escape true 0 s ++ String quote "").

(** Go compares texts byte by byte *)
Fixpoint sle (a b : string) : bool :=
  match a, b with
  | "", _ => true
  | _, "" => false
  | String c a, String d b => (code c <? code d) || (Ascii.eqb c d && sle a b)
  end.
Section Sort.
Context {B : Type}.
Fixpoint insertKey (e : string * B) (l : list (string * B)) : list (string * B) :=
  match l with [] => [e] | f :: r => if sle (fst e) (fst f) then e :: l else f :: insertKey e r end.
(** encoding/json: the entries of a map are written in the order of their keys *)
Definition sortKeys (l : list (string * B)) : list (string * B) := fold_right insertKey [] l.
End Sort.

Section Json.
Context (T : NumText).
Notation jv := (jv T).
Fixpoint ordered (v : jv) : jv :=
  match v with
  | JList l => JList (map ordered l)
  | JMap l => JMap (sortKeys (map (fun e => (fst e, ordered (snd e))) l))
  | _ => v
  end.
(** json.Marshal ends with an error if there is a number that JSON cannot write *)
Fixpoint writable (v : jv) : bool :=
  match v with
  | JNum x => jfinite T x
  | JList l => forallb writable l
  | JMap l => forallb (fun e => writable (snd e)) l
  | _ => true
  end.

Section Layout.
(** json.MarshalIndent with no prefix and two blanks, or json.Marshal *)
Variable indent : bool.
Fixpoint blanks (n : nat) : string := match n with O => "" | S n => "  " ++ blanks n end.
Definition line (d : nat) : string := if indent then String newline (blanks d) else "".
Definition colon : string := if indent then ": " else ":".
Fixpoint write (d : nat) (v : jv) : string :=
  match v with
  | JNull => "null" | JBool b => if b then "true" else "false" | JNum x => jshow T x | JText s => quoted s
  | JList [] => "[]"
  | JList (w :: l) => "[" ++ line (S d) ++ write (S d) w ++ (fix more (l : list jv) : string := match l with [] => line d ++ "]" | w :: l => "," ++ line (S d) ++ write (S d) w ++ more l end) l
  | JMap [] => "{}"
  | JMap (e :: l) =>
      "{" ++ line (S d) ++ quoted (fst e) ++ colon ++ write (S d) (snd e) ++
      (fix more (l : list (string * jv)) : string := match l with [] => line d ++ "}" | e :: l => "," ++ line (S d) ++ quoted (fst e) ++ colon ++ write (S d) (snd e) ++ more l end) l
  end.
End Layout.
(** dynmap/dynmap.go:241-244 [MarshalJSON] *)
Definition MarshalJSON (m : list (string * jv)) : res string := if writable (JMap m) then Ok (write false 0 (ordered (JMap m))) else Err.
(** dynmap/dynmap.go:246-252 [ToJSON]: the empty text if there is an error *)
Definition ToJSON (m : list (string * jv)) : string := if writable (JMap m) then write true 0 (ordered (JMap m)) else "".

(** *** reading *)
Definition space (c : ascii) : bool := (code c =? 32) || (code c =? 9) || (code c =? 10) || (code c =? 13).
Fixpoint skip (s : string) : string := match s with String c r => if space c then skip r else s | "" => "" end.
Definition hexValue (c : ascii) : option N :=
  if between 48 57 c then Some (code c - 48) else if between 97 102 c then Some (code c - 87) else if between 65 70 c then Some (code c - 55) else None.
(** encoding/json getu4, without the "\u" *)
Definition hex4 (a b c d : ascii) : option N :=
  match hexValue a, hexValue b, hexValue c, hexValue d with Some a, Some b, Some c, Some d => Some (4096 * a + 256 * b + 16 * c + d) | _, _, _, _ => None end.
(** the bytes after a backslash that stand for one byte *)
Definition unescape (c : ascii) : option ascii :=
  if Ascii.eqb c quote || Ascii.eqb c backslash || Ascii.eqb c "/" then Some c
  else if Ascii.eqb c "b" then Some (ascii_of_N 8) else if Ascii.eqb c "f" then Some (ascii_of_N 12) else if Ascii.eqb c "n" then Some (ascii_of_N 10)
  else if Ascii.eqb c "r" then Some (ascii_of_N 13) else if Ascii.eqb c "t" then Some (ascii_of_N 9) else None.
(** unicode/utf16: the first and second half of a character beyond 65535 *)
Definition half1 (n : N) : bool := (55296 <=? n) && (n <? 56320).
Definition half2 (n : N) : bool := (56320 <=? n) && (n <? 57344).
Definition prefix (t : string) (o : option (string * string)) : option (string * string) := match o with Some (s, r) => Some (t ++ s, r) | None => None end.
(** encoding/json, the rest of a text literal after its quote, and what follows it; [n] bytes of the last character are still to come *)
Fixpoint literal (n : nat) (s : string) : option (string * string) :=
  match s with
  | "" => None
  | String c r =>
      match n with
      | S n => prefix (String c "") (literal n r)
      | O =>
          if Ascii.eqb c quote then Some ("", r)
          else if Ascii.eqb c backslash then
            match r with
            | "" => None
            | String e r =>
                if Ascii.eqb e "u" then
                  match r with
                  | String a (String b (String c (String d r))) =>
                      match hex4 a b c d with
                      | None => None
                      | Some n =>
                          if half1 n || half2 n then
                            match r with
                            | String x (String y (String a (String b (String c (String d r2))))) =>
                                if Ascii.eqb x backslash && Ascii.eqb y "u" then
                                  match hex4 a b c d with
                                  | Some m => if half1 n && half2 m then prefix (encodeRune (65536 + (n - 55296) * 1024 + (m - 56320))) (literal 0 r2) else prefix replacement (literal 0 r)
                                  | None => prefix replacement (literal 0 r)
                                  end
                                else prefix replacement (literal 0 r)
                            | _ => prefix replacement (literal 0 r)
                            end
                          else prefix (encodeRune n) (literal 0 r)
                      end
                  | _ => None
                  end
                else match unescape e with Some c => prefix (String c "") (literal 0 r) | None => None end
            end
          else if code c <? 32 then None
          else if code c <? 128 then prefix (String c "") (literal 0 r)
          else match runeLen s with O => prefix replacement (literal 0 r) | S n => prefix (String c "") (literal n r) end
      end
  end.

(** the longest start of a text made of the bytes that numbers are made of, and the rest *)
Definition digit (c : ascii) : bool := between 48 57 c.
Definition numberByte (c : ascii) : bool := digit c || Ascii.eqb c "-" || Ascii.eqb c "+" || Ascii.eqb c "." || Ascii.eqb c "e" || Ascii.eqb c "E".
Fixpoint span (s : string) : string * string :=
  match s with String c r => if numberByte c then let '(a, b) := span r in (String c a, b) else ("", s) | "" => ("", "") end.
(** encoding/json, the form of a number: a sign, digits without a leading zero, a fraction, an exponent *)
Fixpoint digits (s : string) : string := match s with String c r => if digit c then digits r else s | "" => "" end.
Definition isExponent (s : string) : bool :=
  match s with
  | "" => true
  | String c r =>
      if Ascii.eqb c "e" || Ascii.eqb c "E" then
        match (match r with String d r' => if Ascii.eqb d "+" || Ascii.eqb d "-" then r' else r | "" => r end) with
        | String d r => digit d && String.eqb (digits r) "" | "" => false end
      else false
  end.
Definition isFraction (s : string) : bool :=
  match s with
  | String c r => if Ascii.eqb c "." then match r with String d r => digit d && isExponent (digits r) | "" => false end else isExponent s
  | "" => true
  end.
Definition isNatural (s : string) : bool :=
  match s with String c r => if Ascii.eqb c "0" then isFraction r else digit c && isFraction (digits r) | "" => false end.
Definition isNumber (s : string) : bool := match s with String c r => if Ascii.eqb c "-" then isNatural r else isNatural s | "" => false end.

(** the text after a word *)
Fixpoint after (w s : string) : option string :=
  match w, s with
  | "", _ => Some s
  | String c w, String d s => if Ascii.eqb c d then after w s else None
  | _, _ => None
  end.
(** encoding/json, a value, and what follows it.  [room]: maps and lists may be nested so deep (10000, since version 1.15).  An entry with the key of one before replaces it. *)
Fixpoint value (fuel : nat) (room : N) (s : string) : res (jv * string) :=
  match fuel with
  | O => OutOfFuel
  | S f =>
      match skip s with
      | "" => Err
      | String c r =>
          if Ascii.eqb c "{" then
            if room =? 0 then Err else
            match skip r with
            | String d r2 => if Ascii.eqb d "}" then Ok (JMap [], r2) else entries f room (skip r) []
            | "" => Err
            end
          else if Ascii.eqb c "[" then
            if room =? 0 then Err else
            match skip r with
            | String d r2 => if Ascii.eqb d "]" then Ok (JList [], r2) else elements f room (skip r) []
            | "" => Err
            end
          else if Ascii.eqb c quote then match literal 0 r with Some (t, r) => Ok (JText t, r) | None => Err end
          else if Ascii.eqb c "n" then match after "ull" r with Some r => Ok (JNull, r) | None => Err end
          else if Ascii.eqb c "t" then match after "rue" r with Some r => Ok (JBool true, r) | None => Err end
          else if Ascii.eqb c "f" then match after "alse" r with Some r => Ok (JBool false, r) | None => Err end
          else let '(a, b) := span (String c r) in if isNumber a then match jread T a with Some x => Ok (JNum x, b) | None => Err end else Err
      end
  end
with entries (fuel : nat) (room : N) (s : string) (acc : list (string * jv)) : res (jv * string) :=
  match fuel with
  | O => OutOfFuel
  | S f =>
      match s with
      | "" => Err
      | String c r =>
          if Ascii.eqb c quote then
            match literal 0 r with
            | None => Err
            | Some (k, r) =>
                match skip r with
                | "" => Err
                | String c r =>
                    if Ascii.eqb c ":" then
                      bind (value f (room - 1) r) (fun '(v, r) =>
                      match skip r with
                      | "" => Err
                      | String c r => if Ascii.eqb c "," then entries f room (skip r) (set k v acc) else if Ascii.eqb c "}" then Ok (JMap (set k v acc), r) else Err
                      end)
                    else Err
                end
            end
          else Err
      end
  end
with elements (fuel : nat) (room : N) (s : string) (acc : list jv) : res (jv * string) :=
  match fuel with
  | O => OutOfFuel
  | S f =>
      bind (value f (room - 1) s) (fun '(v, r) =>
      match skip r with
      | "" => Err
      | String c r => if Ascii.eqb c "," then elements f room r (acc ++ [v])%list else if Ascii.eqb c "]" then Ok (JList (acc ++ [v])%list, r) else Err
      end)
  end.
(** dynmap/dynmap.go:254-256 [UnmarshalJSON] into an empty map: the map, or nil.  Simplified: two steps of the reader take a byte or more, so that the fuel is enough. *)
Definition UnmarshalJSON (s : string) : res (option (list (string * jv))) :=
  bind (value (S (2 * String.length s)) 10000 s) (fun '(v, r) =>
  match skip r with "" => match v with JMap l => Ok (Some l) | JNull => Ok None | _ => Err end | _ => Err end).
(** dynmap/dynmap.go:33-40 [ParseJSON] *)
Definition ParseJSON (s : string) : res (option (list (string * jv))) := UnmarshalJSON (Strip s).

(** dom/app_context.go:168-176, 240-248 [MakeBasicElement] [nextId]: the id of an element; [md5] is the first half of the md5 sum, [show] fmt.Sprint of a value that is not a text *)
Definition elementId (md5 : string -> string) (show : jv -> string) (m : list (string * jv)) : string :=
  match lookup "id" m with
  | Some v => match (match v with JText s => s | _ => show v end) with "" => md5 (ToJSON m) | s => s end
  | None => md5 (ToJSON m)
  end.
End Json.
