(** Model of dom/part_splitter.go: splitting a part that is too large for the material. *)
From Coq Require Import String List ZArith Bool Arith.
From Verif Require Import Num PathModel DrawModel SegOps TransformsModel Bezier GeomTransforms.
Import ListNotations.
Local Open Scope num_scope.

Section PartSplit.
Context {N : Num}.
Notation F := (T N).
Notation P := (Pt N).
Variable co : CurveOps N.
Variable tr : Trig N.
Variable dop : Z.

(** dom/part.go RenderedPart, as far as the splitter uses it: the path and its recorded size (the Part it came from does not change) *)
Record rpart : Type := mkRPart { rp_path : path N; rp_w : F; rp_h : F }.

(** The attributes of the split transformer.  Their lookup is not modelled here: the fields are the values found, [sp_y] and the bleeds
    being absent when not given, [sp_maxH] and [sp_maxW] after the defaults of lines 194-195.  [sp_plug from to] and [sp_socket from to] are
    the rendered edge components (lines 23-36, 67-70, 110-112). *)
Record splitSpec : Type := mkSplit {
  sp_auto : bool; sp_y : option F; sp_maxH : F; sp_maxW : F; sp_yOffset : F;
  sp_bleedTop : option F; sp_bleedBottom : option F;
  sp_plug : P -> P -> res (path N); sp_socket : P -> P -> res (path N); sp_prec : nat }.

Definition orElse (o : option F) (d : F) : F := match o with Some x => x | None => d end.

(** dom/part_splitter.go:15-173 [transformPart]; [kfuel] bounds the recursion of KnifeCut *)
Definition splitAt (kfuel : nat) (sp : splitSpec) (part : rpart) (y : F) : res (list rpart) :=
  bind (TrimWhitespace co (rp_path part)) (fun originalPath =>
  bind (BoundingBoxTrimWhitespace co originalPath) (fun '(tl, br) =>
  let yPos := y + sp_yOffset sp in
  if geb yPos (py br) then Ok [mkRPart originalPath (px br - px tl) (py br - py tl)]
  else
  bind (sp_plug sp (NewPoint (px br) yPos) (NewPoint (px tl) yPos)) (fun plugEdgePath =>
  bind (BoundingBoxTrimWhitespace co plugEdgePath) (fun '(_, brPl) =>
  let bleedTop := orElse (sp_bleedTop sp) (py brPl - yPos) in
  bind (HSlice co dop kfuel (yPos + bleedTop) (sp_prec sp) originalPath) (fun topPath =>
  bind (JoinPaths [topPath; plugEdgePath]) (fun topPath =>
  let bottomY := py br - yPos in
  bind (MirrorT co true ATopLeft originalPath) (fun flipped =>
  bind (sp_socket sp (NewPoint (px br) bottomY) (NewPoint (px tl) bottomY)) (fun socketEdgePath =>
  bind (BoundingBoxTrimWhitespace co socketEdgePath) (fun '(_, brSo) =>
  let bleedBottom := orElse (sp_bleedBottom sp) (py brSo - bottomY) in
  bind (HSlice co dop kfuel (bottomY + bleedBottom) (sp_prec sp) flipped) (fun bottomPath =>
  bind (JoinPaths [bottomPath; socketEdgePath]) (fun bottomPath =>
  bind (MirrorT co true ATopLeft bottomPath) (fun bottomPath =>
  bind (BoundingBoxTrimWhitespace co topPath) (fun '(ttl, tbr) =>
  bind (BoundingBoxTrimWhitespace co bottomPath) (fun '(btl, bbr) =>
  Ok [mkRPart topPath (px tbr - px ttl) (py tbr - py ttl);
      mkRPart bottomPath (px bbr - px btl) (py bbr - py btl)])))))))))))))).

(** dom/part_splitter.go:186-220: the decision of the automatic splitter for a path w wide and h high *)
Inductive decision : Type := SplitHalf | RotateFirst | Fits.
Definition autoDecision (sp : splitSpec) (w h : F) : decision :=
  let mH := sp_maxH sp in let mW := sp_maxW sp in
  if (geb h mH && geb h mW) || (geb h mH && geb w mH) then SplitHalf
  else if geb w mW && geb w mH then RotateFirst
  else Fits.

(** dom/part_splitter.go:175-248 [TransformPart]; Go's recursion has no bound, the model has fuel *)
Fixpoint TransformPart (kfuel fuel : nat) (sp : splitSpec) (part : rpart) : res (list rpart) :=
  match fuel with
  | O => OutOfFuel
  | S fuel' =>
      let finish (yPos : F) :=
        if eqb yPos zero then Ok [part]
        else bind (splitAt kfuel sp part yPos) (fun parts =>
          if Nat.leb (length parts) 1 || negb (sp_auto sp) then Ok parts
          else (fix loop (ps : list rpart) : res (list rpart) :=
                  match ps with
                  | [] => Ok []
                  | p :: r => bind (TransformPart kfuel fuel' sp p) (fun a => bind (loop r) (fun b => Ok (a ++ b)%list))
                  end) parts) in
      if sp_auto sp then
        match sp_y sp with
        | Some _ => Err
        | None =>
            bind (BoundingBoxTrimWhitespace co (rp_path part)) (fun '(tl, br) =>
            let w := px br - px tl in
            let h := py br - py tl in
            if eqb (sp_maxH sp) zero || eqb (sp_maxW sp) zero then Err
            else match autoDecision sp w h with
                 | SplitHalf => finish (h / two)
                 | RotateFirst =>
                     bind (RotateT co tr (ofZ 90) ATopLeft (rp_path part)) (fun pth =>
                     TransformPart kfuel fuel' sp (mkRPart pth h w))
                 | Fits => Ok [part]
                 end)
        end
      else match sp_y sp with None => Err | Some y => finish y end
  end.
End PartSplit.
