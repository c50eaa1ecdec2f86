(** Model of the questions asked of a map (dynmap/dynmap.go): is a key there, what is under it or else, and of removing several keys. *)
From Coq Require Import String List ZArith Bool.
From Coq.Floats Require Import SpecFloat.
From Verif Require Import Num DynModel DynRead.
Import ListNotations.
Local Open Scope string_scope.
Local Open Scope list_scope.

Section Ask.
(** fmt.Sprint of a value that is not a text *)
Variable show : val -> string.
Variables (h : heap) (a : nat).

(** dynmap/dynmap.go:321-324 [Contains], 667-670 [Exists] *)
Definition Contains (key : string) : bool := match Get h a key with Some _ => true | None => false end.
Definition Exists (key : string) : bool := match Get h a key with Some _ => true | None => false end.
(** dynmap/dynmap.go:326-333 [ContainsAll] *)
Fixpoint ContainsAll (keys : list string) : bool := match keys with [] => true | k :: r => if Contains k then ContainsAll r else false end.
(** dynmap/dynmap.go:711-717 [Must] *)
Definition Must (key : string) (def : val) : val := match Get h a key with Some v => v | None => def end.
(** dynmap/dynmap.go:350-360 [GetString]: the text and whether there is one *)
Definition GetString (key : string) : string * bool :=
  match Get h a key with
  | None => ("", false)
  | Some v => let s := ToText show v in if Nat.eqb (String.length s) 0 then (s, false) else (s, true)
  end.
(** dynmap/dynmap.go:364-370 [MustString], 335-338 [ContainsString] *)
Definition MustString (key def : string) : string := let (s, ok) := GetString key in if ok then s else def.
Definition ContainsString (key : string) : bool := snd (GetString key).
(** dynmap/dynmap.go:267-277 [GetInt64]: -1 when there is none; 279-301 [MustInt64], [MustInt], [GetInt] (int has 64 bits) *)
Definition GetInt64 (key : string) : Z * bool :=
  match Get h a key with None => ((-1)%Z, false) | Some v => match ToInt64 v with Some z => (z, true) | None => ((-1)%Z, false) end end.
Definition MustInt (key : string) (def : Z) : Z := let (z, ok) := GetInt64 key in if ok then z else def.
(** dynmap/dynmap.go:392-410 [GetBool], [MustBool] *)
Definition MustBool (key : string) (def : bool) : bool := match GetBool h a key with Some b => b | None => def end.
(** dynmap/dynmap.go:303-319 [GetFloat64], [MustFloat64], with the conversions of int64 and of texts as [ofInt] and [ofFloat] (DynRead.v) *)
Definition MustFloat64 {N : Num} (ofInt : Z -> T N) (ofFloat : spec_float -> T N) (key : string) (def : T N) : T N :=
  match Get h a key with Some v => match ToFloat ofInt ofFloat v with Some x => x | None => def end | None => def end.
(** dynmap/dynmap.go:340-343 [ContainsDynMap], 424-430 [MustDynMap] *)
Definition ContainsDynMap (key : string) : bool := match GetDynMap h a key with Some _ => true | None => false end.
End Ask.

(** dynmap/dynmap.go:672-676 [RemoveAll] *)
Fixpoint RemoveAll (h : heap) (a : nat) (keys : list string) : heap := match keys with [] => h | k :: r => RemoveAll (fst (Remove h a k)) a r end.
