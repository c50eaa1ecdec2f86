(** C51: SVG shapes become their outlines. *)
From Coq Require Import String Ascii List ZArith Bool Lia Reals Lra.
From Verif Require Import Num FloatNum RealNum PathModel DrawModel SegOps TransformsModel SvgParse GeomTransforms SvgElement PathSpec PathProofs PrecisionProofs IeeeProofs SvgProofs SvgProofs2 GeomSpec BezierProofs JoinProofs2
  Prop_C02 Prop_C13 Prop_C39 Prop_C47 Prop_C52 Witness.
Import ListNotations.
Local Open Scope string_scope.
Local Open Scope list_scope.

(** the attribute is a text that reads as the number x *)
Definition attrIs (attrs : list (string * string)) (k : string) (x : R) : Prop := exists v, attrOf k attrs = Some v /\ @SvgParse.ToFloat64 RNum (trim v) = Some (Fin x : T RNum).
Lemma attr_float attrs k x : attrIs attrs k x -> @getFloat RNum attrs k = Some (Fin x : T RNum).
Proof. intros (v & E & F). unfold getFloat. rewrite E. exact F. Qed.
Lemma no_transform {N : Num} attrs (p : path N) : match mustString attrs "transform" with "" => Ok p | t => transformLoop (splitClose t) p end = Ok p.
Proof. destruct (mustString attrs "transform"); [reflexivity|]. apply transformLoop_none. Qed.

Local Open Scope R_scope.
Lemma start_move x y : @MoveTo RNum NewDraw (NewPoint (Fin x : T RNum) (Fin y : T RNum)) = [Move (pnt 0 0) (pnt x y)].
Proof. unfold MoveTo. rewrite pen_CurrentPosition, NewPoint_fin. reflexivity. Qed.
Theorem C51_line attrs ch x1 y1 x2 y2 : attrIs attrs "x1" x1 -> attrIs attrs "y1" y1 -> attrIs attrs "x2" x2 -> attrIs attrs "y2" y2 ->
  ElementToPath (Elem "line" attrs ch) = Ok [Move (pnt 0 0) (pnt x1 y1); Line (pnt x1 y1) (pnt x2 y2)].
Proof.
  intros A B C D. cbn [ElementToPath String.eqb Ascii.eqb Bool.eqb orb]. rewrite !(attr_float _ _ _ A), !(attr_float _ _ _ B), !(attr_float _ _ _ C), !(attr_float _ _ _ D). cbn [bind].
  rewrite no_transform, start_move. unfold LineTo. rewrite pen_CurrentPosition, NewPoint_fin. reflexivity.
Qed.
Print Assumptions C51_line.
(** the four sides, around the rectangle *)
Theorem C51_rect attrs ch x y w h : attrIs attrs "x" x -> attrIs attrs "y" y -> attrIs attrs "width" w -> attrIs attrs "height" h ->
  ElementToPath (Elem "rect" attrs ch) = Ok [Move (pnt 0 0) (pnt x y); Line (pnt x y) (pnt (x + w) y); Line (pnt (x + w) y) (pnt (x + w) (y + h));
    Line (pnt (x + w) (y + h)) (pnt x (y + h)); Line (pnt x (y + h)) (pnt x y)].
Proof.
  intros A B C D. cbn [ElementToPath String.eqb Ascii.eqb Bool.eqb orb]. rewrite !(attr_float _ _ _ A), !(attr_float _ _ _ B), !(attr_float _ _ _ C), !(attr_float _ _ _ D). cbn [bind].
  rewrite no_transform, start_move. unfold Rect. fin. assert (NP : forall a b, @NewPoint RNum (Fin a) (Fin b) = pnt a b) by (intros; apply NewPoint_fin). rewrite !NP. f_equal.
  rewrite (relLine_fin [_]) by reflexivity. rewrite (relLine_fin ([_] ++ [_])) by (rewrite pen_end; reflexivity). rewrite (relLine_fin (([_] ++ [_]) ++ [_])) by (rewrite pen_end; reflexivity).
  rewrite (relLine_fin ((([_] ++ [_]) ++ [_]) ++ [_])) by (rewrite pen_end; reflexivity). rewrite !pen_end. cbn [send app]. unfold pen. cbn [rev app send].
  rewrite !pnt_X, !pnt_Y. repeat (first [ring | progress f_equal]).
Qed.
Print Assumptions C51_rect.
(** the circle of C52 around the given centre *)
Theorem C51_circle attrs ch cx cy r : attrIs attrs "cx" cx -> attrIs attrs "cy" cy -> attrIs attrs "r" r ->
  exists q, ElementToPath (Elem "circle" attrs ch) = Ok q /\ drawn q = circleAt cx cy r /\
  (forall x y, inDrawing q x y -> Rabs r <= dist x y cx cy <= 1.0003 * Rabs r) /\
  (0 < r -> forall a b, (a, b) <> (0, 0) -> exists l, 0 < l /\ inDrawing q (cx + l * a) (cy + l * b)).
Proof.
  intros A B C. cbn [ElementToPath String.eqb Ascii.eqb Bool.eqb orb]. rewrite !(attr_float _ _ _ A), !(attr_float _ _ _ B), !(attr_float _ _ _ C). cbn [bind]. fin.
  eexists. split; [apply no_transform|]. rewrite start_move. set (d := [Move (pnt 0 0) (pnt (cx - r) (cy - r))]).
  assert (F : finitePt (pen d)) by reflexivity. assert (PX : X (pen d) + r = cx) by (cbn; ring). assert (PY : Y (pen d) + r = cy) by (cbn; ring). split; [|split].
  - rewrite C52_shape by auto. rewrite PX, PY. reflexivity.
  - intros x y I. destruct (C52_round d r x y F I) as [(g & [<-|[]] & [] & _)|H]. rewrite PX, PY in H. exact H.
  - intros Hr a b N. destruct (C52_around d r a b F Hr N) as (l & Hl & I). exists l. rewrite PX, PY in I. auto.
Qed.
Print Assumptions C51_circle.

(** A container (any other element) draws what its children draw, in their order; children that are paths must be empty or begin with a move. *)
Definition container (name : string) : Prop := ~ In name ["path"; "circle"; "rect"; "elipse"; "polyline"; "polygon"; "line"].
Lemma container_branch {N : Num} name attrs ch : container name -> @ElementToPath N (Elem name attrs ch) =
  bind ((fix all (l : list element) : res (list (path N)) :=
           match l with [] => Ok [] | c :: r => bind (ElementToPath c) (fun p => bind (all r) (fun ps => Ok (p :: ps))) end) ch)
       JoinPaths.
Proof.
  intros C. assert (E : forall n, In n ["path"; "circle"; "rect"; "elipse"; "polyline"; "polygon"; "line"] -> String.eqb name n = false).
  { intros n I. apply String.eqb_neq. intros ->. auto. }
  cbn [ElementToPath]. rewrite !E by (cbn; tauto). cbn [orb].
  match goal with |- bind (bind ?a ?b) _ = _ => destruct (bind a b) as [p| | |]; [cbn [bind]; apply no_transform|reflexivity..] end.
Qed.
Lemma all_children {N : Num} ch (ps : list (path N)) : Forall2 (fun c p => ElementToPath c = Ok p) ch ps ->
  (fix all (l : list element) : res (list (path N)) :=
     match l with [] => Ok [] | c :: r => bind (ElementToPath c) (fun p => bind (all r) (fun ps => Ok (p :: ps))) end) ch = Ok ps.
Proof. induction 1 as [|c p r ps E F IH]; [reflexivity|]. rewrite E, IH. reflexivity. Qed.
Theorem C51_group (N : Num) name attrs ch (p : path N) ps c : container name -> Forall2 (fun e q => ElementToPath e = Ok q) ch (p :: ps) ->
  Forall (fun q => q = [] \/ exists s e r, q = Move s e :: r) ps ->
  exists q, ElementToPath (Elem name attrs ch) = Ok q /\ Forall2 drawnAs (strokes c p ++ concat (map (strokes origin) ps)) (strokes c q).
Proof.
  intros C F M. rewrite container_branch by auto. rewrite (all_children ch (p :: ps) F). cbn [bind]. apply C13_join_keeps_strokes_partial. exact M.
Qed.
Print Assumptions C51_group.

(** Converting an element gives a path or an error, if every container in it has a child. *)
Fixpoint filled (e : element) : Prop :=
  match e with Elem name _ ch => (container name -> ch <> []) /\ fold_right (fun c P => filled c /\ P) True ch end.
Lemma items_nonempty s : Forall (fun i => i <> "") (items s).
Proof.
  unfold items. assert (G : Forall (fun i => i <> "") (snd (items_loop s))).
  { induction s as [|c r IH]; [constructor|]. cbn [items_loop]. destruct (items_loop r) as [cur rest]. cbn [snd] in IH. destruct (Ascii.eqb c " "); cbn [snd]; [|exact IH]. destruct cur; auto. constructor; auto. discriminate. }
  destruct (items_loop s) as [cur rest]. cbn [snd] in G. destruct cur; auto. constructor; auto. discriminate.
Qed.
Lemma floats_suffix {N : Num} k : forall its (l : list (T N)) r, getNextFloats k its = Some (l, r) -> exists a, its = a ++ r.
Proof.
  induction k as [|k IH]; intros its l r H; cbn [getNextFloats] in H; [injection H as <- <-; exists []; reflexivity|].
  destruct its as [|i its]; [discriminate|]. destruct (SvgParse.ToFloat64 i); [|discriminate]. destruct (getNextFloats k its) as [[xs r']|] eqn:E; [|discriminate].
  injection H as <- <-. destruct (IH _ _ _ E) as [a ->]. exists (i :: a). reflexivity.
Qed.
Definition fine {A} (x : res A) : Prop := match x with Ok _ | Err => True | _ => False end.
Lemma next_fine {N : Num} op r (d : path N) : op <> "" -> match next (op :: r) d with Ok (r', _) => exists a, r = a ++ r' | Err => True | _ => False end.
Proof.
  intros NE. destruct op as [|c op]; [congruence|]. cbn [next].
  destruct c as [[] [] [] [] [] [] [] []]; try exact I; try (exists []; reflexivity);
  (match goal with |- context [getNextFloats ?k r] => destruct (getNextFloats k r) as [[l r']|] eqn:E end; [|exact I]);
  apply floats_suffix in E; do 7 (try destruct l as [|? l]); first [exact I | exact E].
Qed.
Lemma loop_fine {N : Num} fuel : forall its (d : path N), Forall (fun i => i <> "") its -> (List.length its <= fuel)%nat -> fine (parse_loop fuel its d).
Proof.
  induction fuel as [|f IH]; intros its d F L; (destruct its as [|op r]; [exact I|]); cbn [List.length] in L; [lia|].
  inversion F as [|? ? NE Fr]; subst. pose proof (next_fine op r d NE) as H. cbn [parse_loop].
  destruct (next (op :: r) d) as [[r' d']| | |]; cbn [bind fine]; auto. destruct H as (a & ->). apply Forall_app in Fr. rewrite app_length in L. apply IH; [tauto|lia].
Qed.
Lemma parse_fine {N : Num} s : fine (@ParsePathFromSvg N s).
Proof. unfold ParsePathFromSvg. apply loop_fine; [apply items_nonempty|lia]. Qed.
Fixpoint size (e : element) : nat := match e with Elem _ _ ch => S (fold_right (fun c n => (size c + n)%nat) 0%nat ch) end.
Theorem C51_total (N : Num) e : filled e -> fine (@ElementToPath N e).
Proof.
  enough (G : forall n e, (size e < n)%nat -> filled e -> fine (@ElementToPath N e)) by (apply (G (S (size e))); lia). clear e.
  intros n. induction n as [|n IH]; intros e Hs Fl; [lia|]. destruct e as [name attrs ch]. destruct Fl as [Fn Fc].
  destruct (in_dec string_dec name ["path"; "circle"; "rect"; "elipse"; "polyline"; "polygon"; "line"]) as [K|K].
  - assert (B : forall x : res (path N), fine x -> fine (bind x (fun pth => match mustString attrs "transform" with "" => Ok pth | t => transformLoop (splitClose t) pth end))).
    { intros [x| | |]; cbn [bind fine]; auto. rewrite no_transform. exact (fun _ => I). }
    destruct K as [<-|[<-|[<-|[<-|[<-|[<-|[<-|[]]]]]]]]; cbn [ElementToPath String.eqb Ascii.eqb Bool.eqb orb]; apply B; try exact I; try apply parse_fine;
      repeat match goal with |- fine (match ?x with Some _ => _ | None => _ end) => destruct x; try exact I end.
  - fold (container name) in K. rewrite container_branch by exact K. cbn [size] in Hs.
    assert (A : forall l, fold_right (fun c P => filled c /\ P) True l -> (fold_right (fun c n => (size c + n)%nat) 0%nat l < n)%nat ->
      fine ((fix all (l : list element) : res (list (path N)) :=
         match l with [] => Ok [] | c :: r => bind (ElementToPath c) (fun p => bind (all r) (fun ps => Ok (p :: ps))) end) l) /\
      (l <> [] -> (fix all (l : list element) : res (list (path N)) :=
         match l with [] => Ok [] | c :: r => bind (ElementToPath c) (fun p => bind (all r) (fun ps => Ok (p :: ps))) end) l <> Ok [])).
    { clear - IH. induction l as [|c r IHl]; intros Fc L; [split; [exact I|congruence]|]. cbn [fold_right] in Fc, L. destruct Fc as [F1 F2].
      pose proof (IH c ltac:(lia) F1) as H. destruct (IHl F2 ltac:(lia)) as [H2 _].
      destruct (ElementToPath c); cbn [bind fine] in *; try (split; [tauto|congruence]).
      match goal with |- fine (bind ?x _) /\ _ => destruct x; cbn [bind fine] in *; split; try tauto; congruence end. }
    destruct (A ch Fc ltac:(lia)) as [A1 A2]. specialize (A2 (Fn K)).
    match goal with |- fine (bind ?x _) => destruct x as [[|q qs]| | |]; cbn [bind fine JoinPaths] in *; auto end.
Qed.
Print Assumptions C51_total.

(** A path element written by the program itself reads back as the path, to the printed precision. *)
Theorem C51_path attrs ch n (p : path FNum) : Forall go_seg p -> attrOf "d" attrs = Some (SvgString p n) ->
  exists q, ElementToPath (Elem "path" attrs ch) = Ok q /\ Forall2 (seg_close n) p q /\ linked origin q.
Proof.
  intros G D. destruct (C02_binary64_partial n p G) as (q & E & C & L & _). exists q. cbn [ElementToPath String.eqb Ascii.eqb Bool.eqb orb]. unfold mustString at 1. rewrite D, E. cbn [bind].
  rewrite no_transform. auto.
Qed.
Print Assumptions C51_path.

(** The shapes the program does not know are reported, except that the ellipse (spelled in full, as SVG does) and anything else without children panics. *)
Theorem C51_unsupported (N : Num) name attrs ch : In name ["elipse"; "polyline"; "polygon"] -> @ElementToPath N (Elem name attrs ch) = Err.
Proof. intros [<-|[<-|[<-|[]]]]; reflexivity. Qed.
Print Assumptions C51_unsupported.
Theorem C51_panic_refuted (N : Num) name attrs : container name -> @ElementToPath N (Elem name attrs []) = Panic.
Proof. intros C. rewrite container_branch by exact C. reflexivity. Qed.
Print Assumptions C51_panic_refuted.
Ltac notShape := unfold container; cbn [In]; intuition discriminate.
Definition withTitle : element := Elem "svg" [("width", "100")] [Elem "title" [] []; Elem "ellipse" [("cx", "50"); ("cy", "50"); ("rx", "20"); ("ry", "10")] []].
Example C51_panic_example : @ElementToPath FNum withTitle = Panic /\ container "ellipse" /\ container "title".
Proof. split; [byr|]. split; notShape. Qed.

Definition drawing : element := Elem "svg" [("width", "100")] [Elem "rect" [("x", "1.5"); ("y", "2"); ("width", " 10 "); ("height", "20")] [];
  Elem "g" [] [Elem "line" [("x1", "0"); ("y1", "1"); ("x2", "5"); ("y2", "-6")] []; Elem "circle" [("cx", "8"); ("cy", "8"); ("r", "2")] []]; Elem "path" [("d", "M 1 2 L 3 4")] []].
Lemma reads_num s neg m e : readNumber s = Some (NTdec neg m e) -> @SvgParse.ToFloat64 RNum s = ofdec neg m e.
Proof. intros H. unfold SvgParse.ToFloat64. rewrite H. reflexivity. Qed.
Example C51_example : container "svg" /\ container "g" /\ filled drawing /\ attrIs [("x", "1.5")] "x" (3 / 2) /\
  match @ElementToPath FNum drawing with Ok q => (List.length (dpath (drawn q)), firstn 3 (dpath q)) | _ => (0%nat, []) end =
  (10%nat, dpath [Move (pt 0 0) (ptm 1500 2000); Line (ptm 1500 2000) (ptm 11500 2000); Line (ptm 11500 2000) (ptm 11500 22000)]).
Proof.
  split; [notShape|]. split; [notShape|]. split.
  { cbn [filled drawing fold_right]. repeat match goal with |- _ /\ _ => split | |- True => exact I end; intros C; first [discriminate | exfalso; apply C; cbn; tauto]. } split.
  { exists "1.5". split; [reflexivity|]. rewrite (reads_num (trim "1.5") false 15 (-1) eq_refl). change (er_ofdec false 15 (-1) = Some (Fin (3 / 2))). unfold er_ofdec. change (Z.of_N 15) with 15%Z. unfold powerRZ. change (Pos.to_nat 1) with 1%nat. rewrite pow_1. do 2 f_equal. lra. }
  vm_compute. reflexivity.
Qed.

(** the outline of C02 in the "d" attribute of a path element *)
Example C51_path_example : Forall go_seg ex_path /\ attrOf "d" [("id", "lid"); ("d", SvgString ex_path 2)] = Some (SvgString ex_path 2).
Proof. split; [apply C02_example|reflexivity]. Qed.
