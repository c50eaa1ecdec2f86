(** Model of the application context: which factory makes which type (dom/app_context.go, parser/parser.go). *)
From Coq Require Import String List Bool.
From Verif Require Import Num DynModel.
Import ListNotations.
Local Open Scope string_scope.

(** dom/app_context.go:26-42: a factory with the types it names; [f_make] stands for CreateComponent, CreateTransform or CreateTransformer *)
Record factory (A : Type) : Type := mkFactory { f_types : list string; f_make : A }.
Arguments mkFactory {A}. Arguments f_types {A}. Arguments f_make {A}.

Section Context.
(** what makes a component, a transform and a part transformer, and the objects the context holds besides *)
Variables (C Tf Pf Services : Type).
(** dom/app_context.go:44-53 [Factories]; a nil map is read like an empty one *)
Record context : Type := mkContext {
  componentFactories : list (string * factory C);
  transformFactories : list (string * factory Tf);
  partTransformerFactories : list (string * factory Pf);
  services : option Services;
  precision : nat }.

(** dom/app_context.go:102-127 [AddTransformFactory], [AddPartTransformerFactory], [AddComponentFactory]: the three loops *)
Definition register {A} (m : list (string * factory A)) (f : factory A) : list (string * factory A) := fold_left (fun m k => set k f m) (f_types f) m.
Definition AddComponentFactory (c : context) (f : factory C) : context :=
  mkContext (register (componentFactories c) f) (transformFactories c) (partTransformerFactories c) (services c) (precision c).
Definition AddTransformFactory (c : context) (f : factory Tf) : context :=
  mkContext (componentFactories c) (register (transformFactories c) f) (partTransformerFactories c) (services c) (precision c).
Definition AddPartTransformerFactory (c : context) (f : factory Pf) : context :=
  mkContext (componentFactories c) (transformFactories c) (register (partTransformerFactories c) f) (services c) (precision c).
(** dom/app_context.go:76-100 [Init] *)
Definition Init (c : context) (cf : list (factory C)) (tf : list (factory Tf)) (pf : list (factory Pf)) (s : Services) : context :=
  let c1 := fold_left AddComponentFactory cf (mkContext [] (transformFactories c) (partTransformerFactories c) (services c) (precision c)) in
  let c2 := fold_left AddTransformFactory tf (mkContext (componentFactories c1) [] (partTransformerFactories c1) (services c1) (precision c1)) in
  let c3 := fold_left AddPartTransformerFactory pf (mkContext (componentFactories c2) (transformFactories c2) [] (services c2) (precision c2)) in
  mkContext (componentFactories c3) (transformFactories c3) (partTransformerFactories c3) (Some s) (precision c3).
(** dom/app_context.go:55-70 [AppContext]: the one context, made when it is first asked for (path/path.go:12: three digits) *)
Definition AppContext (global : option context) : context := match global with Some c => c | None => mkContext [] [] [] None 3 end.
(** dom/app_context.go:72-74 [SetFileLoader] *)
Definition SetFileLoader (c : context) (change : option Services -> option Services) : context :=
  mkContext (componentFactories c) (transformFactories c) (partTransformerFactories c) (change (services c)) (precision c).

(** dom/app_context.go:197-204 [MakeTransform], 187-195 [MakePartTransformer]: the factory that is asked *)
Definition made {A} (m : list (string * factory A)) (name : string) : res A := match lookup name m with Some f => Ok (f_make f) | None => Err end.
(** dom/app_context.go:148-166 [MakeComponent]: a component of the document's own only if there is no factory of that type *)
Definition madeComponent (c : context) (customs : list (string * C)) (name : string) : res C :=
  match lookup name (componentFactories c) with
  | Some f => Ok (f_make f)
  | None => match lookup name customs with Some d => Ok d | None => Err end
  end.
End Context.
Arguments mkContext {C Tf Pf Services}. Arguments componentFactories {C Tf Pf Services}. Arguments transformFactories {C Tf Pf Services}. Arguments partTransformerFactories {C Tf Pf Services}.
Arguments services {C Tf Pf Services}. Arguments precision {C Tf Pf Services}. Arguments AddComponentFactory {C Tf Pf Services}. Arguments AddTransformFactory {C Tf Pf Services}.
Arguments AddPartTransformerFactory {C Tf Pf Services}. Arguments Init {C Tf Pf Services}. Arguments AppContext {C Tf Pf Services}. Arguments SetFileLoader {C Tf Pf Services}. Arguments madeComponent {C Tf Pf Services}.

(** The types of the factories, by the name of the Go type: dom/part.go:64-66, draw_component.go:31-33, repeat_component.go:41-43, group_component.go:39-41, components/repeat_edge.go:73-75,
    basic_edge.go:43-45, xintercept.go:55-57, around.go:45-47, gear.go:32-34 *)
Definition shippedComponents : list (factory string) :=
  [mkFactory ["part"] "PartFactory"; mkFactory ["draw"] "DrawComponentFactory"; mkFactory ["repeat"] "RepeatComponentFactory"; mkFactory ["group"] "GroupComponentFactory";
   mkFactory ["repeat_edge"] "EdgeComponentFactory"; mkFactory ["basic_edge"] "BasicEdgeComponentFactory"; mkFactory ["xintercept"] "XInterceptComponentFactory";
   mkFactory ["around"] "AroundComponentFactory"; mkFactory ["gear"] "GearComponentFactory"].
(** dom/transform_factories.go:42-44, 64-66, 91-93, 108-110, 142-144, 165-167, 179-181, 319-321, 251-253, 207-209, 187-189, 259-261 and, not registered, 79-81 *)
Definition reorderFactory : factory string := mkFactory ["reorder"] "ReorderTransformFactory".
Definition shippedTransforms : list (factory string) :=
  [mkFactory ["cleanup"] "CleanupTransformFactory"; mkFactory ["rotate"] "RotateTransformFactory"; mkFactory ["reverse"] "ReverseTransformFactory"; mkFactory ["join"] "JoinTransformFactory";
   mkFactory ["offset"] "OffsetTransformFactory"; mkFactory ["move"] "MoveTransformFactory"; mkFactory ["trim"] "TrimTransformFactory"; mkFactory ["matrix"] "MatrixTransformFactory";
   mkFactory ["mirror"] "MirrorTransformFactory"; mkFactory ["scale"] "ScaleTransformFactory"; mkFactory ["slice"] "SliceTransformFactory"; mkFactory ["rotate_scale"] "RotateScaleTransformFactory"].
(** dom/part_transform_factories.go:14-16, 25-27 *)
Definition shippedPartTransformers : list (factory string) := [mkFactory ["splitter"] "PartSplitterTransformerFactory"; mkFactory ["lathe"] "PartLatheTransformerFactory"].
(** parser/parser.go:16-55 [InitContext] *)
Definition InitContext {S : Type} (s : S) (global : option (context string string string S)) : context string string string S :=
  Init (AppContext global) shippedComponents shippedTransforms shippedPartTransformers s.
