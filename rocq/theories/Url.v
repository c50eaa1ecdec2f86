(** Model of how maps are written as URL queries and read from them (dynmap/dynmap.go).  url.Values is a map from field names to lists of texts; the library's
    Encode and ParseQuery are inverse to each other and are left out, as are the orders in which Go visits maps (see DynModel). *)
From Coq Require Import String List ZArith Bool Ascii.
From Verif Require Import Num DynModel.
Import ListNotations.
Local Open Scope string_scope.
Local Open Scope list_scope.

Notation form := (list (string * list string)).
(** url.Values.Add *)
Definition addField (k s : string) (f : form) : form := set k (match lookup k f with Some l => l ++ [s] | None => [s] end) f.

Section Url.
(** fmt.Sprint of a value that is not a string *)
Variable show : val -> string.
(** dynmap/typecast.go:124-133 [ToString] *)
Definition toText (v : val) : string := match v with VStr s => s | _ => show v end.

(** dynmap/dynmap.go:216-239 [urlEncode]; the elements of a slice are added and then the slice itself as one text *)
Fixpoint urlEncode (fuel : nat) (h : heap) (f : form) (key : string) (v : val) : res form :=
  match fuel with
  | O => OutOfFuel
  | S n =>
      match toDyn h v with
      | Some (m, h1) =>
          (fix loop (l : list (string * val)) (f : form) : res form :=
             match l with
             | [] => Ok f
             | (k, w) :: r => bind (urlEncode n h1 f (key ++ "[" ++ k ++ "]")%string w) (fun f' => loop r f')
             end) (hcell h1 m) f
      | None =>
          bind ((fix each (l : list val) (f : form) : res form :=
                   match l with
                   | [] => Ok f
                   | w :: r => bind (urlEncode n h f key w) (fun f' => each r f')
                   end) (match v with VSlice l => l | _ => [] end) f)
               (fun f' => Ok (addField key (toText v) f'))
      end
  end.
(** dynmap/dynmap.go:173-184 [MarshalUrl] *)
Fixpoint encodeAll (fuel : nat) (h : heap) (l : list (string * val)) (f : form) : res form :=
  match l with
  | [] => Ok f
  | (k, v) :: r => bind (urlEncode fuel h f k v) (fun f' => encodeAll fuel h r f')
  end.
Definition MarshalUrl (fuel : nat) (h : heap) (a : nat) : res form := encodeAll fuel h (hcell h a) [].
End Url.

(** dynmap/dynmap.go:203-204: strings.Replace of [ by a dot and of ] by nothing *)
Fixpoint fieldKey (s : string) : string :=
  match s with
  | EmptyString => EmptyString
  | String c r => if Ascii.eqb c "["%char then String "."%char (fieldKey r) else if Ascii.eqb c "]"%char then fieldKey r else String c (fieldKey r)
  end.
(** dynmap/dynmap.go:206-210; several texts become a slice ([]string) *)
Definition fieldValue (l : list string) : val := match l with [s] => VStr s | _ => VSlice (map VStr l) end.
(** dynmap/dynmap.go:200-213 and 188-196 [UnmarshalUrl] [UnmarshalUrlValues], the fields in the order of the list.  The error of PutWithDot is dropped; it changes nothing when it fails, since
    the maps it makes on the way are empty. *)
Fixpoint UnmarshalUrlValues (h : heap) (a : nat) (f : form) : heap :=
  match f with
  | [] => h
  | (k, l) :: r => UnmarshalUrlValues (match PutWithDot h a (fieldKey k) (fieldValue l) with Ok h' => h' | _ => h end) a r
  end.
