(** Model of a design from its parts to the files: the repeats, labels and part transformers of a part (dom/part.go, dom/part_transform_factories.go), then the
    layout and the writing of Deliver.v.  The attributes have been looked up: a field that can be missing is an option; what the components of a part draw is a
    function of the local variable part_index, and so are the attributes of its label and of its part transformers. *)
From Coq Require Import String Ascii List ZArith NArith Bool.
From Verif Require Import Num PathModel DrawModel SegOps TransformsModel Bezier GeomTransforms UnitsModel BinPack PlanSet SvgWrite Output Deliver Components PartSplit.
Import ListNotations.
Local Open Scope string_scope.

Section Design.
Context {N : Num}.
Variable co : CurveOps N.
Variable tr : Trig N.
Variable dop : Z.
Notation F := (T N).
Notation P := (Pt N).
Notation part := (PlanSet.rpart N (info N)).

(** dom/lathe_part_transformer.go:16-38: the attributes of the lathe; [la_comp from to index] is the rendered component of line 73 *)
Record latheSpec := mkLathe { la_thickness : F; la_top : F; la_bottom : F; la_prec : Z; la_comp : P -> P -> Z -> res (path N) }.
(** one map of "part_transformers": its type and the attributes, read when the value of part_index is the argument *)
Record ptSpec := mkPT { pt_type : string; pt_split : Z -> splitSpec (N := N); pt_lathe : Z -> latheSpec }.
(** dom/part.go:13-16 [Part]: the id, repeat.total, the drawing (Part.Render, dom/part.go:145-197), label.text, label.position and the part transformers *)
Record partDef := mkPartDef { pd_id : string; pd_repeat : Z; pd_render : Z -> res (path N); pd_label : Z -> string; pd_at : Z -> string; pd_transformers : list ptSpec }.

(** %s:%d of dom/part.go:112 and dom/lathe_part_transformer.go:89; the number is not negative *)
Definition numbered (text : string) (i : Z) : string := text ++ ":" ++ digits_int (Z.to_N i).
(** dom/part.go:84-121, one round of the loop *)
Definition renderCopy (d : partDef) (i : Z) : res part :=
  bind (renderOne co (pd_render d) i) (fun '(p, w, h) =>
    let text := pd_label d i in
    let text := if (1 <? pd_repeat d)%Z && negb (String.eqb text "") then numbered text i else text in
    Ok (mkInfo (pd_id d) p text (pd_at d i), w, h)).

(** dom/part_splitter.go:175-233, whether the part itself is returned; see PartSplit.v for the same tests *)
Definition leftAlone (sp : splitSpec (N := N)) (p : path N) : bool :=
  if sp_auto sp then
    match sp_y sp with
    | Some _ => false
    | None =>
        match BoundingBoxTrimWhitespace co p with
        | Ok (tl, br) =>
            let w := (px br - px tl)%num in
            let h := (py br - py tl)%num in
            if eqb (sp_maxH sp) zero || eqb (sp_maxW sp) zero then false
            else match autoDecision sp w h with Fits => true | SplitHalf => eqb (h / two)%num zero | RotateFirst => false end
        | _ => false
        end
    end
  else match sp_y sp with Some y => eqb y zero | None => false end.
(** dom/part_splitter.go:175-248 [PartSplitter.TransformPart] with the label: new parts (lines 55-62, 159-172, 210-215) have none *)
Definition Splitter (kfuel fuel : nat) (sp : splitSpec (N := N)) (q : part) : res (list part) :=
  let '(i, w, h) := q in
  if leftAlone sp (i_path i) then Ok [q]
  else bind (TransformPart co tr dop kfuel fuel sp (mkRPart (i_path i) w h)) (fun l =>
       Ok (map (fun r => (mkInfo (i_id i) (rp_path r) "" "", rp_w r, rp_h r)) l)).

(** dom/lathe_part_transformer.go:14-116 [LathePartTransform.TransformPart] with the labels (lines 86-90); the variables it sets are in Components.v *)
Definition LatheParts (fuel : nat) (l : latheSpec) (q : part) : res (list part) :=
  let '(i, _, _) := q in
  bind (Lathe co dop fuel (la_prec l) (la_comp l) (i_path i) (la_thickness l) (la_top l) (la_bottom l)) (fun '(ls, _, _, _, _) =>
  Ok (map (fun '(k, (p, w, h)) =>
        (mkInfo (i_id i) p (if String.eqb (i_label i) "" then "" else numbered (i_label i) (Z.of_nat k)) (i_at i), w, h)) (combine (seq 0 (List.length ls)) ls))).

Variables kfuel sfuel lfuel : nat.   (* for KnifeCut, the recursion of the splitter and the loop of the lathe *)
(** dom/app_context.go:188-195 [MakePartTransformer] with the factories of parser/parser.go:42-46, dom/part_transform_factories.go *)
Definition makePT (t : ptSpec) : res (Z -> part -> res (list part)) :=
  if String.eqb (pt_type t) "splitter" then Ok (fun i => Splitter kfuel sfuel (pt_split t i))
  else if String.eqb (pt_type t) "lathe" then Ok (fun i => LatheParts lfuel (pt_lathe t i))
  else Err.
(** dom/part.go:128-138, the loops over the part transformers and the parts *)
Fixpoint transformAll (ts : list (part -> res (list part))) (ps : list part) : res (list part) :=
  match ts with
  | [] => Ok ps
  | t :: r => bind (each t ps) (fun qs => transformAll r (List.concat qs))
  end.
(** dom/part.go:77-140 [RenderPart]; dom/app_context.go:231-241 [MakePartTransformers].  part_index keeps the value of the last round (line 86). *)
Definition RenderParts (d : partDef) : res (list part) :=
  bind (each (renderCopy d) (upto (pd_repeat d))) (fun ps =>
  bind (each makePT (pd_transformers d)) (fun ts => transformAll (map (fun t => t (pd_repeat d - 1)%Z) ts) ps)).

(** dom/planset.go:83-101, the loop of [Init]: a part is rendered after the ones before it are placed *)
Fixpoint initParts (w h p : F) (ds : list (sheet N (info N))) (parts : list partDef) : res (list (sheet N (info N))) :=
  match parts with
  | [] => Ok ds
  | d :: r => bind (RenderParts d) (fun qs => bind (addAll 3 w h p ds qs) (fun ds' => initParts w h p ds' r))
  end.

(** dom/document.go, the attributes of a document that matter here: material_width, material_height, doc_padding, measurement_units *)
Record design := mkDesign { ds_width : option F; ds_height : option F; ds_padding : option F; ds_units : option string; ds_parts : list partDef }.
Definition given {A} (o : option A) (d : A) : A := match o with Some x => x | None => d end.
(** dom/planset.go:30-44 [createSvgDoc] *)
Definition docWidth (d : design) : F := given (ds_width d) (ofZ 20).
Definition docHeight (d : design) : F := given (ds_height d) (ofZ 12).
Definition docPadding (d : design) : F := given (ds_padding d) (ofZ 1 / ofZ 10)%num.
Definition docUnits (d : design) : Units := MustUnits (given (ds_units d) "in") Inches.
(** main.go:60-77, 315-334, dom/planset.go:75-102 [Init]: the disk after the design is rendered and saved under the name [saveFile] *)
Definition RenderDesign (d : design) (saveFile : string) (before : disk) : res disk :=
  let w := docWidth d in let h := docHeight d in let p := docPadding d in
  bind (initParts w h p [newSheet w h p] (ds_parts d)) (fun ds =>
  Ok (save before saveFile (map (fun s => WriteSVG co (NewSVGDocument w h (docUnits d) (s_renderables s))) ds))).
End Design.
Arguments latheSpec N : clear implicits.
Arguments ptSpec N : clear implicits.
Arguments partDef N : clear implicits.
Arguments design N : clear implicits.
