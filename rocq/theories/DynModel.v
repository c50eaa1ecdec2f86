(** Model of package dynmap (dynmap/dynmap.go, sort.go, typecast.go): nested string-keyed maps with dotted access.
    Go maps are references: a map is an address in a heap of cells.  A cell lists its entries, each key once, in the order in which
    [range] visits them; Go leaves that order open, so theorems hold for every order of the entries. *)
From Coq Require Import String List ZArith Bool Ascii DecimalString.
From Coq.Floats Require Import SpecFloat.
From Verif Require Import Num.
Import ListNotations.
Local Open Scope string_scope.
Local Open Scope list_scope.

(** The dynamic types a value may have.  [VMap] is a map[string]interface{}, a DynMap or a pointer to one of them (the struct DynMap,
    dynmap/dynmap.go:16-18, only holds the map).  A slice is its elements (writing to an element of a slice is not modelled);
    [VStrMap] is a map[string]string, [VObj] any other value.  All integer types are [VInt], both float types [VFloat]. *)
Inductive val : Type :=
| VNil | VBool (b : bool) | VInt (z : Z) | VFloat (x : spec_float) | VStr (s : string) | VTime (t : Z)
| VMap (a : nat) | VStrMap (l : list (string * string)) | VSlice (l : list val) | VObj (n : nat).

Record heap : Type := mkHeap { hnext : nat; hcell : nat -> list (string * val) }.

Section Assoc.
Context {A : Type}.
Fixpoint lookup (k : string) (l : list (string * A)) : option A :=
  match l with [] => None | (k', v) :: r => if String.eqb k k' then Some v else lookup k r end.
(** mp[k] = v: replaces the value, or adds an entry (where in the order is left open, see above) *)
Fixpoint set (k : string) (v : A) (l : list (string * A)) : list (string * A) :=
  match l with [] => [(k, v)] | (k', v') :: r => if String.eqb k k' then (k', v) :: r else (k', v') :: set k v r end.
(** delete(mp, k) *)
Fixpoint del (k : string) (l : list (string * A)) : list (string * A) :=
  match l with [] => [] | (k', v') :: r => if String.eqb k k' then del k r else (k', v') :: del k r end.
End Assoc.

Definition store (h : heap) (a : nat) (l : list (string * val)) : heap :=
  mkHeap (hnext h) (fun b => if Nat.eqb a b then l else hcell h b).
(** make(map[string]interface{}) *)
Definition alloc (h : heap) : nat * heap := (hnext h, mkHeap (S (hnext h)) (fun b => if Nat.eqb (hnext h) b then [] else hcell h b)).

(** strings.Split(key, "."): never empty *)
Fixpoint splitDots (s : string) : list string :=
  match s with
  | EmptyString => [EmptyString]
  | String c r => if Ascii.eqb c "."%char then EmptyString :: splitDots r
                  else match splitDots r with [] => [String c EmptyString] | w :: ws => String c w :: ws end
  end.

(** dynmap/typecast.go:203-216 [ToMap], the entries readable through a value *)
Definition entries (h : heap) (v : val) : option (list (string * val)) :=
  match v with
  | VMap a => Some (hcell h a)
  | VStrMap l => Some (map (fun p => (fst p, VStr (snd p))) l)
  | _ => None
  end.

(** dynmap/dynmap.go:736-752: following the parts of a dotted key *)
Fixpoint walk (h : heap) (l : list (string * val)) (ks : list string) : option val :=
  match ks with
  | [] => None
  | [k] => lookup k l
  | k :: r => match lookup k l with
              | Some v => match entries h v with Some l' => walk h l' r | None => None end
              | None => None
              end
  end.

(** dynmap/dynmap.go:725-753 [Get] *)
Definition Get (h : heap) (a : nat) (key : string) : option val :=
  match lookup key (hcell h a) with
  | Some v => Some v
  | None => match splitDots key with [_] => None | ks => walk h (hcell h a) ks end
  end.

(** dynmap/dynmap.go:618-630 [Put]; beforePut turns a DynMaper into its map, which is what [VMap] stands for *)
Definition Put (h : heap) (a : nat) (key : string) (v : val) : heap := store h a (set key v (hcell h a)).

(** dynmap/dynmap.go:647-663: the loop of PutWithDot from the map at [a].  ToMap of a map[string]string makes a fresh copy
    (typecast.go:180-185), so what is written below it is lost. *)
Fixpoint putDots (h : heap) (a : nat) (ks : list string) (v : val) : res heap :=
  match ks with
  | [] => Ok h
  | [k] => Ok (Put h a k v)
  | k :: r =>
      match lookup k (hcell h a) with
      | None => let '(b, h1) := alloc h in putDots (Put h1 a k (VMap b)) b r v
      | Some (VMap b) => putDots h b r v
      | Some (VStrMap l) => match r with
                            | k2 :: _ :: _ => match lookup k2 l with Some _ => Err | None => Ok h end
                            | _ => Ok h
                            end
      | Some _ => Err
      end
  end.
(** dynmap/dynmap.go:640-665 [PutWithDot] *)
Definition PutWithDot (h : heap) (a : nat) (key : string) (v : val) : res heap :=
  match splitDots key with
  | [_] => Ok (Put h a key v)
  | ks => putDots h a ks v
  end.

(** dynmap/dynmap.go:594-601 [PutIfAbsent] and 606-613 [PutIfAbsentWithDot] (which drops the error of PutWithDot) *)
Definition PutIfAbsent (h : heap) (a : nat) (key : string) (v : val) : heap * (val * bool) :=
  match Get h a key with Some v' => (h, (v', false)) | None => (Put h a key v, (v, true)) end.
Definition PutIfAbsentWithDot (h : heap) (a : nat) (key : string) (v : val) : heap * (val * bool) :=
  match Get h a key with
  | Some v' => (h, (v', false))
  | None => (match PutWithDot h a key v with Ok h' => h' | _ => h end, (v, true))
  end.

(** dynmap/dynmap.go:690-707: the loop of Remove; deleting from the copy of a map[string]string changes nothing *)
Fixpoint removeDots (h : heap) (a : nat) (ks : list string) : heap * option val :=
  match ks with
  | [] => (h, None)
  | k :: r =>
      match lookup k (hcell h a) with
      | None => (h, None)
      | Some v =>
          match r with
          | [] => (store h a (del k (hcell h a)), Some v)
          | _ => match v with
                 | VMap b => removeDots h b r
                 | VStrMap l => (h, walk h (map (fun p => (fst p, VStr (snd p))) l) r)
                 | _ => (h, None)
                 end
          end
      end
  end.
(** dynmap/dynmap.go:679-709 [Remove] *)
Definition Remove (h : heap) (a : nat) (key : string) : heap * option val :=
  match lookup key (hcell h a) with
  | Some v => (store h a (del key (hcell h a)), Some v)
  | None => match splitDots key with [_] => (h, None) | ks => removeDots h a ks end
  end.

(** dynmap/typecast.go:168-198 [ToDynMap]; a map[string]string is copied into a fresh map *)
Definition toDyn (h : heap) (v : val) : option (nat * heap) :=
  match v with
  | VMap a => Some (a, h)
  | VStrMap l => let '(b, h1) := alloc h in Some (b, store h1 b (map (fun p => (fst p, VStr (snd p))) l))
  | _ => None
  end.
(** dynmap/dynmap.go:415-422 [GetDynMap] *)
Definition GetDynMap (h : heap) (a : nat) (key : string) : option (nat * heap) :=
  match Get h a key with Some v => toDyn h v | None => None end.

(** dynmap/dynmap.go:152-167 [Merge] and 146-148 [Clone] (inlined where Merge calls it).  The entries of mp are listed when the loop
    starts; Go may or may not visit entries added to mp while it runs, which needs mp and this to share a map. *)
Fixpoint Merge (fuel : nat) (h : heap) (this mp : nat) : res heap :=
  match fuel with
  | O => OutOfFuel
  | S f =>
      (fix loop (l : list (string * val)) (h : heap) : res heap :=
         match l with
         | [] => Ok h
         | (key, value) :: r =>
             bind (match GetDynMap h mp key with
                   | Some (m, h1) =>
                       match GetDynMap h1 this key with
                       | Some (m2, h2) => Merge f h2 m2 m
                       | None => let '(c, h2) := alloc h1 in bind (Merge f h2 c m) (fun h3 => Ok (Put h3 this key (VMap c)))
                       end
                   | None => Ok (Put h this key value)
                   end) (fun h' => loop r h')
         end) (hcell h mp) h
  end.
Definition Clone (fuel : nat) (h : heap) (a : nat) : res (nat * heap) :=
  let '(c, h1) := alloc h in bind (Merge fuel h1 c a) (fun h2 => Ok (c, h2)).

(** %d of an index *)
Definition natString (n : nat) : string := NilZero.string_of_uint (Nat.to_uint n).

(** dynmap/dynmap.go:82-111 [Flatten]: the result is a map with its own order, here the order of insertion *)
Fixpoint Flatten (fuel : nat) (h : heap) (a : nat) : res (list (string * val)) :=
  match fuel with
  | O => OutOfFuel
  | S f =>
      let under (pre : string) (sub : list (string * val)) (mp : list (string * val)) :=
        fold_left (fun mp p => set (pre ++ "." ++ fst p)%string (snd p) mp) sub mp in
      let slice := fix slice (k : string) (i : nat) (items : list val) (mp : list (string * val)) : res (list (string * val)) :=
        match items with
        | [] => Ok mp
        | item :: r =>
            match toDyn h item with
            | Some (m, h1) => bind (Flatten f h1 m) (fun sub => slice k (S i) r (under (k ++ "." ++ natString i)%string sub mp))
            | None => slice k (S i) r (set (k ++ "." ++ natString i)%string item mp)
            end
        end in
      (fix loop (l : list (string * val)) (mp : list (string * val)) : res (list (string * val)) :=
         match l with
         | [] => Ok mp
         | (k, v) :: r =>
             match GetDynMap h a k with
             | Some (m, h1) => bind (Flatten f h1 m) (fun sub => loop r (under k sub mp))
             | None => match v with
                       | VSlice items => bind (slice k 0%nat items mp) (fun mp' => loop r mp')
                       | _ => loop r (set k v mp)
                       end
             end
         end) (hcell h a) []
  end.

(** dynmap/dynmap.go:115-124 [UnFlatten], its loop over the entries in the order of [l] *)
Fixpoint putAllDots (h : heap) (a : nat) (l : list (string * val)) : res heap :=
  match l with
  | [] => Ok h
  | (k, v) :: r => bind (PutWithDot h a k v) (fun h' => putAllDots h' a r)
  end.
Definition UnFlatten (h : heap) (l : list (string * val)) : res (nat * heap) :=
  let '(b, h1) := alloc h in bind (putAllDots h1 b l) (fun h2 => Ok (b, h2)).

(** dynmap/sort.go:101-130 [ToSortVal] with the conversion of typecast.go:86-122 [ToInt64]: the sort class and, for numbers, the integer.
    Strings are caught before ToInt64, so its parsing is not reached.  int64(x) of a float64 drops the fraction; out of range and NaN
    it gives the least int64 on amd64. *)
Definition minInt64 : Z := (- 2 ^ 63)%Z.
Definition truncZ (x : spec_float) : Z :=
  match x with
  | S754_zero _ => 0%Z
  | S754_finite s m e => let z := cond_Zopp s (match e with Zneg p => Z.div (Zpos m) (Z.pow_pos 2 p) | _ => (Zpos m * 2 ^ e)%Z end) in
                         if ((minInt64 <=? z) && (z <? - minInt64))%Z then z else minInt64
  | _ => minInt64
  end.
Inductive sortVal : Type := SBool (b : bool) | SInt (z : Z) | SStr (s : string) | STime (t : Z) | SMap (v : val) | SOther (v : val).
Definition ToSortVal (v : val) : sortVal :=
  match v with
  | VBool b => SBool b
  | VTime t => STime t
  | VStr s => SStr s
  | VInt z => SInt z
  | VFloat x => SInt (truncZ x)
  | VMap _ | VStrMap _ => SMap v
  | _ => SOther v
  end.
Definition sortOrder (v : sortVal) : nat :=
  match v with SBool _ => 0 | SInt _ => 1 | SStr _ => 2 | STime _ => 3 | SMap _ => 4 | SOther _ => 10 end.

(** dynmap/sort.go:68-89 [Less]; [show] is the text fmt.Sprintf("%s", v) *)
Definition Less (show : val -> string) (v1 v2 : val) : bool :=
  let s1 := ToSortVal v1 in
  let s2 := ToSortVal v2 in
  if Nat.eqb (sortOrder s1) (sortOrder s2) then
    match s1, s2 with
    | SBool t, _ => t
    | SInt x, SInt y => Z.ltb x y
    | STime x, STime y => Z.ltb x y
    | SStr x, SStr y => String.ltb x y
    | _, _ => String.ltb (show v1) (show v2)
    end
  else Nat.ltb (sortOrder s1) (sortOrder s2).
(** dynmap/sort.go:42-65 [DynMapSlice.Less] on the maps at two addresses *)
Definition SliceLess (show : val -> string) (h : heap) (col : string) (a b : nat) : bool :=
  match Get h a col with
  | None => false
  | Some v1 => match Get h b col with None => true | Some v2 => Less show v1 v2 end
  end.
