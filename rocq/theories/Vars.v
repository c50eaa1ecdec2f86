(** Variables that components set while they are rendered (dom/models.go, dom/document.go) *)
From Coq Require Import String List.
From Verif Require Import Num DynModel ParamModel.

(** dom/models.go:110-114, 177-181 [SetLocalVariable]: into the element's own map; the error of PutWithDot is dropped *)
Definition SetLocal (h : heap) (e : elem) (key : string) (v : val) : heap :=
  match PutWithDot h (e_orig e) key v with Ok h' => h' | _ => h end.
(** dom/document.go:50-65 [FindDocumentContext]: up the parents to the document, whose parameters are [e_doc]; Ok None is a nil context.
    [isPart] tells which components are a *Part: for these [Document] (dom/part.go:69-75) takes the parent to be the document, and panics if it is
    another element; a nil document is used as a pointer.  An element without components above it is the document if it has an [e_doc]. *)
Fixpoint findContext (isPart : elem -> bool) (c : chain) : res (option nat) :=
  match c with
  | Root e => Ok (e_doc e)
  | Child e parent => if isPart e then match parent with Root r => match e_doc r with Some d => Ok (Some d) | None => Panic end | _ => Panic end
                      else findContext isPart parent
  | Orphan e => if isPart e then Panic else Ok None
  end.
(** dom/models.go:116-120, 183-187 [SetGlobalVariable]: into the parameters of the document; a nil context is used as a pointer.
    FindDocumentContext gets the embedded BasicComponent, so the component itself is never taken for a *Part. *)
Definition SetGlobal (isPart : elem -> bool) (h : heap) (c : chain) (key : string) (v : val) : res heap :=
  bind (match c with Root e => Ok (e_doc e) | Child _ parent => findContext isPart parent | Orphan _ => Ok None end) (fun o =>
    match o with
    | Some d => Ok (match PutWithDot h d key v with Ok h' => h' | _ => h end)
    | None => Panic
    end).
