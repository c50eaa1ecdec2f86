(** Model of documents: dom/app_context.go (components and documents), dom/document.go and the factories of components
    (dom/part.go, group_component.go, repeat_component.go, draw_component.go, components/*.go).
    The maps of a document are trees here (DynModel.v has the maps as they are, references in a heap): parsing a document builds every map anew with
    Clone, which is the identity on trees.  Not modelled: that maps inside of lists are shared between a definition and its uses. *)
From Coq Require Import String Ascii List ZArith Bool.
From Verif Require Import Num DynModel Components.
Import ListNotations.
Local Open Scope string_scope.
Local Open Scope list_scope.

(** what a JSON text stands for; [JOther] is a number, a boolean or null *)
Inductive json : Type := JStr (s : string) | JOther (n : nat) | JArr (l : list json) | JObj (l : list (string * json)).
Notation obj := (list (string * json)).

(** dynmap/dynmap.go:736-752, on trees *)
Fixpoint jwalk (l : obj) (ks : list string) : option json :=
  match ks with
  | [] => None
  | [k] => lookup k l
  | k :: r => match lookup k l with Some (JObj l') => jwalk l' r | _ => None end
  end.
(** dynmap/dynmap.go:725-753 [Get] *)
Definition jget (l : obj) (key : string) : option json :=
  match lookup key l with
  | Some v => Some v
  | None => match splitDots key with [_] => None | ks => jwalk l ks end
  end.
(** dynmap/dynmap.go:152-167 [Merge]: the value at a key after merging [v] over what was there.  A key with dots is looked up literally
    (Merge would follow the dots if there is no such key). *)
Fixpoint over (v : json) (old : option json) : json :=
  match v with
  | JObj l => JObj ((fix go (l : obj) (acc : obj) : obj := match l with [] => acc | (k, w) :: r => go r (set k (over w (lookup k acc)) acc) end)
                      l (match old with Some (JObj o) => o | _ => [] end))
  | _ => v
  end.
Definition jmerge (this mp : obj) : obj := match over (JObj mp) (Some (JObj this)) with JObj l => l | _ => [] end.
(** dynmap/dynmap.go:433-454, 509-515 [MustDynMapSlice] with an empty default: nothing unless every element is a map *)
Fixpoint allObjs (l : list json) : option (list obj) :=
  match l with [] => Some [] | JObj o :: r => option_map (cons o) (allObjs r) | _ :: _ => None end.
Definition objs (m : obj) (k : string) : list obj :=
  match jget m k with Some (JArr l) => match allObjs l with Some os => os | None => [] end | _ => [] end.
(** dynmap/dynmap.go:415-431 [MustDynMap] with an empty default *)
Definition objAt (m : obj) (k : string) : obj := match jget m k with Some (JObj o) => o | _ => [] end.
(** dynmap/dynmap.go:553-562 [AddToSlice] *)
Definition addTo (m : obj) (k : string) (v : json) : obj :=
  match jget m k with
  | None => set k (JArr [v]) m
  | Some (JArr l) => set k (JArr (l ++ [v])) m
  | Some _ => m
  end.
(** dynmap/dynmap.go:679-709 [Remove] of "params.index" *)
Definition removeIndex (m : obj) : obj :=
  match lookup "params.index" m with
  | Some _ => del "params.index" m
  | None => match lookup "params" m with Some (JObj p) => set "params" (JObj (del "index" p)) m | _ => m end
  end.

(** An element: elementType, id, originalMap and children (dom/models.go:139-149) *)
Inductive comp : Type := Comp (ty id : string) (m : obj) (kids : list comp).
Definition ctype (c : comp) := let (t, _, _, _) := c in t.
Definition cid (c : comp) := let (_, i, _, _) := c in i.
Definition cmap (c : comp) := let (_, _, m, _) := c in m.
Definition ckids (c : comp) := let (_, _, _, k) := c in k.

Section Docs.
(** fmt.Sprint of a value that is not a string (dynmap/typecast.go:124-133) *)
Variable show : json -> string.
(** the first half of the md5 sum of the JSON text of a map (dom/app_context.go:246-250) *)
Variable hash : obj -> string.
(** what is read from a file: the map of its JSON text without comments, or a failure (dynmap/dynmap.go:33-40); the SVG text of the drawing in it
    (dom/app_context.go:319-333) *)
Variable files : string -> option obj.
Variable svgs : string -> option string.
(** the order in which the entries of a Go map are visited *)
Variable shuffle : list comp -> list comp.

(** dynmap/dynmap.go:350-370 [GetString], [MustString] *)
Definition getStr (m : obj) (k : string) : option string :=
  match jget m k with
  | Some v => match (match v with JStr s => s | _ => show v end) with EmptyString => None | s => Some s end
  | None => None
  end.
Definition mustStr (m : obj) (k d : string) : string := match getStr m k with Some s => s | None => d end.

(** dom/app_context.go:168-187 [MakeBasicComponent]: the id of an element *)
Definition idOf (m : obj) : string := mustStr m "id" (hash m).
(** dom/common.go:71-77 *)
Definition maps (l : list comp) : json := JArr (map (fun c => JObj (cmap c)) l).

(** parser/parser.go:17-27: the types that have a factory *)
Definition builtin : list string := ["part"; "draw"; "repeat"; "group"; "repeat_edge"; "basic_edge"; "xintercept"; "around"; "gear"].

(** the keys under which a single child is made (repeat_component.go:24-25, repeat_edge.go:34-51, xintercept.go:24-35, around.go:23-24) *)
Definition singles (ty : string) : list string :=
  if String.eqb ty "repeat" then ["component"] else if String.eqb ty "repeat_edge" then ["repeatable"; "left"; "right"]
  else if String.eqb ty "xintercept" then ["repeatable"; "outline"] else if String.eqb ty "around" then ["repeatable"] else [].
(** dm.Put(key, child): the map of the child, at the keys in turn *)
Definition putBack (m : obj) (ks : list string) (kids : list comp) : obj := fold_left (fun m e => set (fst e) (JObj (cmap (snd e))) m) (combine ks kids) m.

(** The CreateComponent of each factory; [rec] makes the children *)
Definition create (rec : obj -> res comp) (ty : string) (dm : obj) : res comp :=
  if String.eqb ty "part" then (* dom/part.go:38-61 *)
    let dm := match jget dm "type" with None => set "type" (JStr "part") dm | Some _ => dm end in
    bind (each rec (objs dm "components")) (fun kids => Ok (Comp (mustStr dm "type" "") (idOf dm) (set "components" (maps kids) dm) kids))
  else if String.eqb ty "group" || String.eqb ty "basic_edge" then (* dom/group_component.go:17-36, components/basic_edge.go:21-40 *)
    bind (each rec (objs dm "components")) (fun kids => let dm := set "components" (maps kids) dm in Ok (Comp (mustStr dm "type" "") (idOf dm) dm kids))
  else if String.eqb ty "repeat" then (* dom/repeat_component.go:20-38 *)
    bind (rec (objAt dm "component")) (fun kid => Ok (Comp (mustStr dm "type" "") (idOf dm) dm [kid]))
  else (* components/repeat_edge.go:30-66, xintercept.go:20-49, around.go:19-42, gear.go:21-29, dom/draw_component.go:19-28 *)
    bind (each (fun k => rec (objAt dm k)) (singles ty)) (fun kids => let dm := putBack dm (singles ty) kids in Ok (Comp (mustStr dm "type" "") (idOf dm) dm kids)).

(** dom/document.go:17-47 [CreateCustomComponent], the map of the component it makes; [d] is the map of the definition *)
Definition instance (d dm : obj) : obj :=
  let replaced := del "type" dm in
  let ts := objs d "transforms" ++ objs replaced "transforms" in
  let n := del "custom_component" d in
  let n := if String.eqb (mustStr n "type" "part") "part" then removeIndex (set "type" (JStr "group") n) else n in
  set "transforms" (JArr (map JObj ts)) (jmerge n replaced).

(** dom/app_context.go:148-166 [MakeComponent], 206-216 [MakeComponents] *)
Fixpoint Make (fuel : nat) (customs : list (string * obj)) (dm : obj) : res comp :=
  match fuel with
  | O => OutOfFuel
  | S f =>
      match getStr dm "type" with
      | None => Err
      | Some ty =>
          if existsb (String.eqb ty) builtin then create (Make f customs) ty dm
          else match lookup ty customs with None => Err | Some d => Make f customs (instance d dm) end
      end
  end.

(** dom/document.go:66-71 *)
Record doc : Type := mkDoc { d_id : string; d_map : obj; d_parts : list comp; d_elems : list (string * comp); d_customs : list (string * obj); d_params : obj }.

(** dom/app_context.go:372-387 [populateElementsByID] *)
Fixpoint populate (c : comp) (m : list (string * comp)) : list (string * comp) :=
  match c with Comp _ i _ kids => (fix go (l : list comp) (m : list (string * comp)) := match l with [] => m | k :: r => go r (populate k m) end) kids (set i c m) end.
Definition populateAll (l : list comp) : list (string * comp) := fold_left (fun m c => populate c m) l [].
(** dom/document.go:74-80 [AllElements] *)
Definition AllElements (d : doc) : list comp := shuffle (map snd (d_elems d)).

(** dom/app_context.go:306-318: the custom components of an imported document, under their names; the params of the document become defaults *)
Definition define (d : doc) (imp : obj) (customs : list (string * obj)) (e : comp) : list (string * obj) :=
  match mustStr (cmap e) "custom_component.type" "" with
  | EmptyString => customs
  | t => set (mustStr imp ("alias." ++ t) t) (set "defaults" (JObj (jmerge (jmerge (objAt (cmap e) "defaults") (objAt (d_map d) "params")) (d_params d))) (cmap e)) customs
  end.

(** dom/app_context.go:295-335: one import; [parse] parses a document *)
Definition import (parse : obj -> res doc) (imp : obj) (st : list (string * obj) * obj) : res (list (string * obj) * obj) :=
  let '(customs, params) := st in
  let pth := mustStr imp "path" "" in
  let t := mustStr imp "type" "component" in
  if String.eqb t "component" then
    match files pth with
    | None => Err
    | Some m => bind (parse m) (fun d => Ok (fold_left (define d imp) (AllElements d) customs, params))
    end
  else if String.eqb t "svg" then
    match svgs pth, getStr imp "alias" with Some s, Some v => Ok (customs, set v (JStr s) params) | _, _ => Err end
  else Ok st.
Fixpoint imports (parse : obj -> res doc) (l : list obj) (st : list (string * obj) * obj) : res (list (string * obj) * obj) :=
  match l with [] => Ok st | i :: r => bind (import parse i st) (imports parse r) end.

(** dom/app_context.go:269-370 [ParseDocument] *)
Fixpoint Parse (fuel : nat) (dm : obj) : res doc :=
  match fuel with
  | O => OutOfFuel
  | S f =>
      match mustStr dm "filename" "" with
      | EmptyString =>
          bind (imports (Parse f) (objs dm "imports") ([], [])) (fun st =>
          bind (each (create (Make f (fst st)) "part") (objs dm "parts")) (fun parts =>
          Ok (mkDoc (idOf dm) (fold_left (fun m p => addTo m "parts" (JObj (cmap p))) parts (del "parts" dm)) parts (populateAll parts) (fst st) (snd st))))
      | name =>
          match files name with
          | None => Err
          | Some d1 => Parse f (jmerge (fold_left (fun m i => addTo m "imports" (JObj i)) (objs dm "imports") d1) (del "imports" (del "filename" dm)))
          end
      end
  end.

(** strings.Trim(id, "@") *)
Fixpoint trimLeft (s : string) : string := match s with String c r => if Ascii.eqb c "@"%char then trimLeft r else s | EmptyString => s end.
Fixpoint rev_str (s acc : string) : string := match s with EmptyString => acc | String c r => rev_str r (String c acc) end.
Definition trimAt (s : string) : string := rev_str (trimLeft (rev_str (trimLeft s) "")) "".
(** dom/document.go:82-86 [FindElementByID], 88-96 [FindPartByID] *)
Definition FindElementByID (d : doc) (id : string) : option comp := lookup (trimAt id) (d_elems d).
Definition FindPartByID (d : doc) (id : string) : option comp := find (fun p => String.eqb (cid p) (trimAt id)) (d_parts d).
End Docs.
