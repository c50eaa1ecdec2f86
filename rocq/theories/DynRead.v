(** Model of the typed reads and the lists of package dynmap: dynmap/typecast.go:30-122 and dynmap/dynmap.go:455-588.  A list held by a map is a
    []interface{}, as the JSON and URL readers make them; []int and []string, which are handed out as they are, do not occur.  Texts are read as
    bytes: the blanks of strings.TrimSpace and the letters of strings.ToLower are those of ASCII. *)
From Coq Require Import String Ascii List ZArith NArith Bool.
From Coq.Floats Require Import SpecFloat.
From Verif Require Import Num DynModel SvgParse SvgElement.
Import ListNotations.
Local Open Scope string_scope.
Local Open Scope list_scope.

(** strconv.ParseInt: the value of a digit in bases up to 36 *)
Definition digitVal (c : ascii) : option Z :=
  let n := Z.of_N (N_of_ascii c) in let m := Z.of_N (N_of_ascii (lowerCh c)) in
  if ((48 <=? n) && (n <=? 57))%Z then Some (n - 48)%Z else if ((97 <=? m) && (m <=? 122))%Z then Some (m - 87)%Z else None.
(** strconv.ParseUint, the digits: the value so far is [acc]; underscores are passed over (base prefix 0 was asked for) *)
Fixpoint digits (base acc : Z) (s : string) : option Z :=
  match s with
  | "" => Some acc
  | String c r => if Ascii.eqb c "_" then digits base acc r
                  else match digitVal c with Some d => if (d <? base)%Z then digits base (acc * base + d)%Z r else None | None => None end
  end.
(** strconv.underscoreOK after sign and prefix: an underscore must stand between digits ([saw]: the last one was a digit) *)
Fixpoint underscores (hex saw : bool) (s : string) : bool :=
  match s with
  | "" => true
  | String c r => if Ascii.eqb c "_" then saw && match r with "" => false | String d _ => isDigit d || hex && match digitVal d with Some v => (v <? 16)%Z | None => false end end && underscores hex false r
                  else underscores hex (isDigit c || hex && match digitVal c with Some v => (v <? 16)%Z | None => false end) r
  end.
(** strconv.ParseUint(s, 0, 64): 0b, 0o, 0x and 0 in front give the base *)
Definition parseUint (s : string) : option Z :=
  match s with
  | "" => None
  | String "0" r =>
      let base c := let l := lowerCh c in if Ascii.eqb l "b" then Some 2%Z else if Ascii.eqb l "o" then Some 8%Z else if Ascii.eqb l "x" then Some 16%Z else None in
      match r with
      | String c (String _ _ as t) => match base c with
                                      | Some b => if underscores (Z.eqb b 16) true t then digits b 0 t else None
                                      | None => if underscores false true r then digits 8 0 r else None
                                      end
      | _ => if underscores false true r then digits 8 0 r else None
      end
  | _ => if underscores false false s then digits 10 0 s else None
  end.
(** strconv.ParseInt(s, 0, 64); what is out of range is an error *)
Definition parseInt (s : string) : option Z :=
  let '(neg, t) := match s with String "-" r => (true, r) | String "+" r => (false, r) | _ => (false, s) end in
  match parseUint t with
  | Some n => let z := (if neg then - n else n)%Z in if ((minInt64 <=? z) && (z <? - minInt64))%Z then Some z else None
  | None => None
  end.
(** int64(v) of an integer type: a uint64 above the range wraps around *)
Definition wrap64 (z : Z) : Z := ((z - minInt64) mod (2 ^ 64) + minInt64)%Z.
(** dynmap/typecast.go:86-122 [ToInt64], 57-60 [ToInt] (int has 64 bits) *)
Definition ToInt64 (v : val) : option Z :=
  match v with
  | VStr s => parseInt (trim s)
  | VInt z => Some (wrap64 z)
  | VFloat x => Some (truncZ x)
  | _ => None
  end.
(** dynmap/typecast.go:70-84 [ToFloat64] *)
Definition ToFloat {N : Num} (ofInt : Z -> T N) (ofFloat : spec_float -> T N) (v : val) : option (T N) :=
  match v with
  | VFloat x => Some (ofFloat x)
  | VStr s => ToFloat64 (trim s)
  | _ => match ToInt64 v with Some z => Some (ofInt z) | None => None end
  end.
(** dynmap/typecast.go:30-47 [ToBool] *)
Definition ToBool (v : val) : option bool :=
  match v with
  | VBool b => Some b
  | VStr s => let t := lower s in
      if existsb (String.eqb t) ["true"; "t"; "yes"; "y"; "on"] then Some true else if existsb (String.eqb t) ["false"; "f"; "no"; "n"; "off"] then Some false else None
  | _ => None
  end.

(** strings.Split(s, delim) for a delimiter that is not empty: [skip] characters of a delimiter that was found are still to be passed *)
Fixpoint splitAt (delim s : string) (skip : nat) : list string :=
  match s with
  | "" => [""]
  | String c r =>
      match skip with
      | S k => splitAt delim r k
      | O => if prefix delim s then "" :: splitAt delim r (String.length delim - 1)
             else match splitAt delim r 0 with [] => [String c ""] | w :: ws => String c w :: ws end
      end
  end.
Definition split (delim s : string) : list string := splitAt delim s 0.

(** all values of a list, nothing if one is missing *)
Fixpoint all {A B} (f : A -> option B) (l : list A) : option (list B) :=
  match l with [] => Some [] | x :: r => match f x with Some y => match all f r with Some ys => Some (y :: ys) | None => None end | None => None end end.
(** dynmap/dynmap.go:287-301 [GetInt] *)
Definition GetInt (h : heap) (a : nat) (key : string) : option Z := match Get h a key with Some v => ToInt64 v | None => None end.
(** dynmap/dynmap.go:391-402 [GetBool] *)
Definition GetBool (h : heap) (a : nat) (key : string) : option bool := match Get h a key with Some v => ToBool v | None => None end.
(** dynmap/dynmap.go:456-476 [GetIntSlice] *)
Definition GetIntSlice (h : heap) (a : nat) (key : string) : option (list Z) :=
  match Get h a key with Some (VSlice l) => all ToInt64 l | _ => None end.
(** dynmap/dynmap.go:480-499 [GetIntSliceSplit] *)
Definition GetIntSliceSplit (h : heap) (a : nat) (key delim : string) : option (list Z) :=
  match Get h a key with Some (VStr s) => all (fun w => ToInt64 (VStr w)) (split delim s) | _ => GetIntSlice h a key end.
Section Texts.
(** fmt.Sprint of a value that is not a text *)
Variable show : val -> string.
(** dynmap/typecast.go:124-133 [ToString] *)
Definition ToText (v : val) : string := match v with VStr s => s | _ => show v end.
(** dynmap/dynmap.go:518-535 [GetStringSlice] *)
Definition GetStringSlice (h : heap) (a : nat) (key : string) : option (list string) :=
  match Get h a key with Some (VSlice l) => Some (map ToText l) | _ => None end.
(** dynmap/dynmap.go:539-550 [GetStringSliceSplit] *)
Definition GetStringSliceSplit (h : heap) (a : nat) (key delim : string) : option (list string) :=
  match Get h a key with Some (VStr s) => Some (split delim s) | _ => GetStringSlice h a key end.
End Texts.
(** dynmap/dynmap.go:553-562 [AddToSlice]; the error is always nil *)
Definition AddToSlice (h : heap) (a : nat) (key : string) (items : list val) : heap :=
  let h1 := fst (PutIfAbsent h a key (VSlice [])) in
  match Get h1 a key with Some (VSlice l) => Put h1 a key (VSlice (l ++ items)) | _ => h1 end.
(** dynmap/dynmap.go:565-574 [AddToSliceWithDot]; the errors of PutWithDot are dropped *)
Definition AddToSliceWithDot (h : heap) (a : nat) (key : string) (items : list val) : heap :=
  let h1 := fst (PutIfAbsentWithDot h a key (VSlice [])) in
  match Get h1 a key with Some (VSlice l) => match PutWithDot h1 a key (VSlice (l ++ items)) with Ok h2 => h2 | _ => h1 end | _ => h1 end.
(** dynmap/dynmap.go:579-588 [PutAll] *)
Definition PutAll (h : heap) (a : nat) (v : val) : heap * bool :=
  match entries h v with Some l => (fold_left (fun h kv => Put h a (fst kv) (snd kv)) l h, true) | None => (h, false) end.
