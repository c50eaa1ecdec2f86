(** C77: the text of a sheet is an SVG document with its parts. *)
From Coq Require Import String Ascii List ZArith Bool Lia.
From Verif Require Import Num PathModel SegOps GeomTransforms SvgParse AttrText UnitsModel BinPack PlanSet TextProofs SvgProofs SvgWrite XmlSpec.
From Verif Require Import FloatNum Witness.
Import ListNotations.
Local Open Scope string_scope.

Section Claims.
Context {N : Num}.
Variable co : CurveOps N.
Notation doc := (svgdoc N).
Notation rend := (renderable N (info N)).
Definition infoOf (r : rend) : info N := fst (fst (r_part r)).

(** The element of a label, if it has one and its place is known *)
Definition labelNodes (d : doc) (i : info N) (q : Pt N) : list node :=
  [Elem "text" [("x", fmt 3 (px q)); ("y", fmt 3 (py q)); ("style", d_labels d)] (if allBlank (i_label i) then [] else [Text (i_label i)])].
(** [x] is the element of the part [r]: a group with the transform, in it the path with id, outline and style, then the label *)
Definition partNode (d : doc) (r : rend) (x : node) : Prop := exists ls,
  x = Elem "g" [("transform", transformText r)] (Elem "path" [("id", i_id (infoOf r)); ("d", SvgString (i_path (infoOf r)) (d_precision d)); ("style", d_cut d)] [] :: ls) /\
  ((i_label (infoOf r) = "" /\ ls = []) \/ (i_label (infoOf r) <> "" /\ exists q, PointPathAttributeText co (i_at (infoOf r)) (i_path (infoOf r)) = Ok q /\ ls = labelNodes d (infoOf r) q)).
(** no characters that mean something in XML *)
Definition cleanDoc (d : doc) : Prop := every okVal (d_cut d) = true /\ every okVal (d_labels d) = true /\ every okVal (u_abv (d_units d)) = true.
Definition cleanPart (r : rend) : Prop := every okVal (i_id (infoOf r)) = true /\ every okText (i_label (infoOf r)) = true.
(** the label, if any, is at a place that the path has *)
Definition placed (r : rend) : Prop := i_label (infoOf r) = "" \/ exists q, PointPathAttributeText co (i_at (infoOf r)) (i_path (infoOf r)) = Ok q.

(** *** numbers, transforms and outlines *)
Lemma every_all p s : all_ch p s = every p s. Proof. induction s as [|c s IH]; [reflexivity|]. cbn [all_ch every]. rewrite IH. reflexivity. Qed.
Lemma render_val n t : every okVal (Num.render n t) = true.
Proof.
  destruct t as [|[]|s m]; try reflexivity. rewrite <- every_all. eapply all_ch_impl; [|apply render_dec_chars]. intros c H. unfold decCh in H. destruct c as [[] [] [] [] [] [] [] []]; try reflexivity; discriminate H.
Qed.
Lemma fmt_val n (x : T N) : every okVal (fmt n x) = true. Proof. apply render_val. Qed.
Lemma concat_val l : Forall (fun s => every okVal s = true) l -> every okVal (String.concat " " l) = true.
Proof. induction l as [|s [|t r] IH]; intros H; [reflexivity|exact (Forall_inv H)|]. cbn [String.concat]. inversion H; subst. rewrite !every_app, H2. cbn [every andb]. change (okVal " ") with true. cbn [andb]. apply IH. assumption. Qed.
Lemma transform_val (r : rend) : every okVal (transformText r) = true.
Proof.
  unfold transformText. apply concat_val. apply Forall_forall. intros s Hs. apply in_map_iff in Hs. destruct Hs as (o & <- & _). destruct o; cbn [opText]; rewrite !every_app, !render_val; reflexivity.
Qed.
Lemma outline_val (p : path N) n : every okVal (SvgString p n) = true.
Proof.
  unfold SvgString. apply concat_val. apply Forall_forall. intros s Hs. apply in_map_iff in Hs. destruct Hs as (g & <- & _). destruct g; cbn [segSvg]; unfold xyText; rewrite !every_app, !fmt_val; reflexivity.
Qed.

(** *** the lines *)
Definition inner (fs : list frame) : Prop := match fs with _ :: _ :: _ => True | _ => False end.
Lemma run_lt t fs : allBlank t = true -> inner fs -> run (MText t, fs) "<" = (MLt, fs).
Proof. intros H HI. destruct fs as [|f [|f' fs]]; try destruct HI. cbn [run step]. unfold addText. rewrite H. reflexivity. Qed.
Lemma at_eq k v : at_ k v = k ++ "=" ++ String quote "" ++ v ++ String quote "". Proof. reflexivity. Qed.
(** an attribute after a blank *)
Lemma run_at n a fs c k v : run (MTag n a, fs) (String c k ++ "=") = (MEq n a (String c k), fs) -> every okVal v = true -> run (MTag n a, fs) (at_ (String c k) v) = (MAfter n (a ++ [(String c k, v)])%list, fs).
Proof. intros H Hv. rewrite at_eq. apply run_attr; assumption. Qed.

Lemma run_open t fs s : allBlank t = true -> inner fs -> run (MText t, fs) (String "<" s) = run (MLt, fs) s.
Proof. intros H HI. change (String "<" s) with ("<" ++ s). rewrite run_app, run_lt by assumption. reflexivity. Qed.

Lemma run_group (r : rend) t fs s : allBlank t = true -> inner fs -> run (MText t, fs) (line ("<g " ++ at_ "transform" (transformText r) ++ ">") ++ s) = run (MText nl, ("g", [("transform", transformText r)], []) :: fs) s.
Proof.
  intros Ht HI. unfold line. rewrite !run_app. rewrite run_open by assumption. change (run (MLt, fs) "g ") with (MTag "g" [], fs). rewrite run_at; [|reflexivity|apply transform_val]. reflexivity.
Qed.
Lemma run_path i d st t fs s : allBlank t = true -> inner fs -> every okVal i = true -> every okVal d = true -> every okVal st = true ->
  run (MText t, fs) (line ("<path " ++ at_ "id" i ++ " " ++ at_ "d" d ++ " " ++ at_ "style" st ++ " />") ++ s) = run (MText nl, child (Elem "path" [("id", i); ("d", d); ("style", st)] []) fs) s.
Proof.
  intros Ht HI Hi Hd Hs. unfold line. rewrite !run_app. rewrite run_open by assumption. change (run (MLt, fs) "path ") with (MTag "path" [], fs).
  rewrite run_at; [|reflexivity|exact Hi]. change (run (MAfter "path" ([] ++ [("id", i)])%list, fs) " ") with (MTag "path" [("id", i)], fs).
  rewrite run_at; [|reflexivity|exact Hd]. change (run (MAfter "path" ([("id", i)] ++ [("d", d)])%list, fs) " ") with (MTag "path" [("id", i); ("d", d)], fs).
  rewrite run_at; [|reflexivity|exact Hs]. reflexivity.
Qed.
Lemma run_label x y st l t fs s : allBlank t = true -> inner fs -> every okVal x = true -> every okVal y = true -> every okVal st = true -> every okText l = true ->
  run (MText t, fs) (line ("<text " ++ at_ "x" x ++ " " ++ at_ "y" y ++ " " ++ at_ "style" st ++ ">" ++ l ++ "</text>") ++ s) = run (MText nl, child (Elem "text" [("x", x); ("y", y); ("style", st)] (if allBlank l then [] else [Text l])) fs) s.
Proof.
  intros Ht HI Hx Hy Hs Hl. unfold line. rewrite !run_app. rewrite run_open by assumption. change (run (MLt, fs) "text ") with (MTag "text" [], fs).
  rewrite run_at; [|reflexivity|exact Hx]. change (run (MAfter "text" ([] ++ [("x", x)])%list, fs) " ") with (MTag "text" [("x", x)], fs).
  rewrite run_at; [|reflexivity|exact Hy]. change (run (MAfter "text" ([("x", x)] ++ [("y", y)])%list, fs) " ") with (MTag "text" [("x", x); ("y", y)], fs).
  rewrite run_at; [|reflexivity|exact Hs]. change (run (MAfter "text" ([("x", x); ("y", y)] ++ [("style", st)])%list, fs) ">") with (MText "", ("text", [("x", x); ("y", y); ("style", st)], []) :: fs). rewrite run_text by exact Hl.
  destruct fs as [|f [|f' fs]]; try destruct HI. cbn [append]. cbn [run step]. change (Ascii.eqb "<" "<") with true. cbv iota. unfold addText. destruct (allBlank l); reflexivity.
Qed.
Lemma run_close t n a k fs s : allBlank t = true -> inner ((n, a, k) :: fs) -> n = "g" -> run (MText t, (n, a, k) :: fs) (line "</g>" ++ s) = run (MText nl, child (Elem n a k) fs) s.
Proof. intros Ht HI ->. unfold line. cbn [append]. rewrite run_open by assumption. destruct fs as [|f fs]; [destruct HI|]. reflexivity. Qed.

(** a part is written as its element *)
Lemma run_part d r t fs s : cleanDoc d -> cleanPart r -> placed r -> allBlank t = true -> inner fs -> exists x, partNode d r x /\ run (MText t, fs) (fst (SvgWrite.render co d r) ++ s) = run (MText nl, child x fs) s.
Proof.
  intros (C1 & C2 & C3) (C4 & C5) HP Ht HI. unfold SvgWrite.render. fold (infoOf r). destruct (String.eqb_spec (i_label (infoOf r)) "") as [E|E].
  - eexists. split; [exists []; split; [reflexivity|left; auto]|]. cbn [fst]. rewrite !TextProofs.app_assoc_s. rewrite run_group by assumption. rewrite run_path; try assumption; [|reflexivity|destruct fs; [destruct HI|exact I]|apply outline_val]. cbn [child app]. rewrite run_close; [reflexivity|reflexivity|destruct fs; [destruct HI|exact I]|reflexivity].
  - destruct HP as [HP|(q & HP)]; [contradiction|]. rewrite HP. eexists. split; [eexists; split; [reflexivity|right; split; [exact E|exists q; auto]]|]. cbn [fst]. rewrite !TextProofs.app_assoc_s. rewrite run_group by assumption. rewrite run_path; try assumption; [|reflexivity|destruct fs; [destruct HI|exact I]|apply outline_val]. cbn [child app].
    rewrite run_label; try assumption; try apply fmt_val; [|reflexivity|destruct fs; [destruct HI|exact I]]. cbn [child app]. rewrite run_close; [reflexivity|reflexivity|destruct fs; [destruct HI|exact I]|reflexivity].
Qed.

(** *** the document *)
Definition svgAttrs (d : doc) : list (string * string) :=
  ((if d_size d then [("width", (fmt 3 (d_width d) ++ u_abv (d_units d))%string); ("height", (fmt 3 (d_height d) ++ u_abv (d_units d))%string)] else []) ++
  [("viewBox", ("0.000 0.000 " ++ fmt 3 (d_width d) ++ " " ++ fmt 3 (d_height d))%string); ("xmlns", "http://www.w3.org/2000/svg"); ("xmlns:xlink", "http://www.w3.org/1999/xlink")])%list.
Definition top : frame := ("", [], []).
Definition prefix_ : string := "<?xml " ++ at_ "version" "1.0" ++ "?>" ++ nl ++ tb ++ "<!-- Generated by github.com/dustismo/heavyfishdesign -->" ++ nl ++ tb ++ "<svg ".
Lemma run_tail (a : list (string * string)) v : every okVal v = true ->
  run (MTag "svg" a, [top]) (at_ "viewBox" v ++ nl ++ "    " ++ tb ++ at_ "xmlns" "http://www.w3.org/2000/svg" ++ nl ++ tb ++ tb ++ at_ "xmlns:xlink" "http://www.w3.org/1999/xlink" ++ ">" ++ nl ++ tb) =
  (MText (nl ++ tb), [("svg", (a ++ [("viewBox", v); ("xmlns", "http://www.w3.org/2000/svg"); ("xmlns:xlink", "http://www.w3.org/1999/xlink")])%list, []); top]).
Proof.
  intros Hv. rewrite run_app. rewrite run_at; [|reflexivity|exact Hv]. match goal with |- run (MAfter ?n ?b, ?fs) ?x = _ => set (b' := b); transitivity (MText (nl ++ tb), [("svg", ((b' ++ [("xmlns", "http://www.w3.org/2000/svg")]) ++ [("xmlns:xlink", "http://www.w3.org/1999/xlink")])%list, @nil node); top]); [reflexivity|] end.
  unfold b'. rewrite <- !List.app_assoc. reflexivity.
Qed.
Lemma run_start d s : cleanDoc d -> run (MText "", [top]) (start d ++ s) = run (MText (nl ++ tb), [("svg", svgAttrs d, []); top]) s.
Proof.
  intros (_ & _ & C3). rewrite run_app. f_equal. unfold start, svgAttrs. cbv zeta. assert (HV : every okVal ("0.000 0.000 " ++ fmt 3 (d_width d) ++ " " ++ fmt 3 (d_height d)) = true) by (rewrite !every_app, !fmt_val; reflexivity).
  assert (HW : forall x : T N, every okVal (fmt 3 x ++ u_abv (d_units d)) = true) by (intros x; rewrite every_app, fmt_val, C3; reflexivity). set (v := "0.000 0.000 " ++ _) in *. set (w := fmt 3 (d_width d) ++ _). set (h := fmt 3 (d_height d) ++ _). assert (Hw : every okVal w = true) by apply HW. assert (Hh : every okVal h = true) by apply HW. clearbody v w h.
  match goal with |- run ?st (_ ++ _ ++ _ ++ _ ++ _ ++ _ ++ _ ++ _ ++ _ ++ ?r) = _ => change (run st (prefix_ ++ r) = (MText (nl ++ tb), [("svg", ((if d_size d then [("width", w); ("height", h)] else []) ++ [("viewBox", v); ("xmlns", "http://www.w3.org/2000/svg"); ("xmlns:xlink", "http://www.w3.org/1999/xlink")])%list, []); top])) end.
  rewrite (run_app _ prefix_). change (run (MText "", [top]) prefix_) with (MTag "svg" [], [top]). rewrite run_app. destruct (d_size d).
  - rewrite (run_app _ (at_ "width" w)). rewrite run_at; [|reflexivity|exact Hw]. rewrite (run_app _ " " (at_ "height" h)). change (run (MAfter "svg" ([] ++ [("width", w)])%list, [top]) " ") with (MTag "svg" [("width", w)], [top]). rewrite run_at; [|reflexivity|exact Hh]. rewrite (run_app _ " "). change (run (MAfter "svg" ([("width", w)] ++ [("height", h)])%list, [top]) " ") with (MTag "svg" [("width", w); ("height", h)], [top]). apply run_tail, HV.
  - change (run (MTag "svg" [], [top]) "") with (MTag "svg" [], [top]). rewrite (run_app _ " "). change (run (MTag "svg" [], [top]) " ") with (MTag "svg" [], [top]). apply run_tail, HV.
Qed.
Lemma concat_cons x l : String.concat "" (x :: l) = x ++ String.concat "" l. Proof. destruct l; cbn [String.concat append]; [rewrite append_nil|]; reflexivity. Qed.
Lemma run_parts d rs : cleanDoc d -> Forall cleanPart rs -> Forall placed rs -> forall t n a k (f : frame) s, allBlank t = true -> exists xs t', Forall2 (partNode d) rs xs /\ allBlank t' = true /\ run (MText t, [(n, a, k) : frame; f]) (String.concat "" (map (fun r => fst (SvgWrite.render co d r)) rs) ++ s) = run (MText t', [(n, a, (k ++ xs)%list) : frame; f]) s.
Proof.
  intros CD. induction rs as [|r rs IH]; intros HC HP t n a k f s Ht.
  - exists [], t. split; [constructor|]. split; [exact Ht|]. rewrite List.app_nil_r. reflexivity.
  - inversion HC as [|? ? C1 C2]; subst. inversion HP as [|? ? P1 P2]; subst. cbn [map]. rewrite concat_cons, TextProofs.app_assoc_s. destruct (run_part d r t [(n, a, k); f] (String.concat "" (map (fun r => fst (SvgWrite.render co d r)) rs) ++ s) CD C1 P1 Ht I) as (x & Hx & EQ). cbn [child] in EQ.
    destruct (IH C2 P2 nl n a (k ++ [x])%list f s eq_refl) as (xs & t' & H1 & H2 & H3). exists (x :: xs), t'. split; [constructor; assumption|]. split; [exact H2|]. eapply eq_trans; [exact EQ|]. eapply eq_trans; [exact H3|]. rewrite <- List.app_assoc. reflexivity.
Qed.

(** What is written is an SVG document of the size of the sheet with one group for each part, in order. *)
Theorem C77_document d : cleanDoc d -> Forall cleanPart (d_renderables d) -> Forall placed (d_renderables d) -> exists xs, readXml (WriteSVG co d) = Some (Elem "svg" (svgAttrs d) xs) /\ Forall2 (partNode d) (d_renderables d) xs.
Proof.
  intros CD HC HP. unfold readXml, WriteSVG. fold top. rewrite run_start by exact CD. destruct (run_parts d _ CD HC HP (nl ++ tb) "svg" (svgAttrs d) [] top end_ eq_refl) as (xs & t & H1 & H2 & ->). exists xs. split; [|exact H1]. unfold end_, line. cbn [append]. rewrite run_open by (exact H2 || exact I). reflexivity.
Qed.

(** Sheets as the program makes them have clean styles and units, whatever their size. *)
Theorem C77_sheet w h u rs : u = Inches \/ u = MilliMeters -> Forall cleanPart rs -> Forall placed rs -> exists xs, readXml (WriteSVG co (NewSVGDocument w h u rs)) = Some (Elem "svg" (svgAttrs (NewSVGDocument w h u rs)) xs) /\ Forall2 (partNode (NewSVGDocument w h u rs)) rs xs.
Proof.
  intros Hu HC HP. apply (C77_document (NewSVGDocument w h u rs)); try assumption. unfold cleanDoc, NewSVGDocument. cbn [d_cut d_labels d_units]. split; [rewrite every_app, fmt_val; reflexivity|]. split; [rewrite !every_app, fmt_val; reflexivity|]. destruct Hu as [->| ->]; reflexivity.
Qed.

(** *** labels without a place *)
Lemma run_unplaced d r t fs s : cleanDoc d -> cleanPart r -> ~ placed r -> allBlank t = true -> inner fs -> exists a k, run (MText t, fs) (fst (SvgWrite.render co d r) ++ s) = run (MText nl, ("g", a, k) :: fs) s.
Proof.
  intros (C1 & C2 & C3) (C4 & C5) HP Ht HI. unfold SvgWrite.render. fold (infoOf r). destruct (String.eqb_spec (i_label (infoOf r)) "") as [E|E]; [exfalso; apply HP; left; exact E|].
  assert (HG : forall u, run (MText t, fs) ((line ("<g " ++ at_ "transform" (transformText r) ++ ">") ++ line ("<path " ++ at_ "id" (i_id (infoOf r)) ++ " " ++ at_ "d" (SvgString (i_path (infoOf r)) (d_precision d)) ++ " " ++ at_ "style" (d_cut d) ++ " />")) ++ u) = run (MText nl, ("g", [("transform", transformText r)], [Elem "path" [("id", i_id (infoOf r)); ("d", SvgString (i_path (infoOf r)) (d_precision d)); ("style", d_cut d)] []]) :: fs) u).
  { intros u. rewrite TextProofs.app_assoc_s. rewrite run_group by assumption. rewrite run_path; try assumption; [|reflexivity|destruct fs; [destruct HI|exact I]|apply outline_val]. reflexivity. }
  destruct (PointPathAttributeText co (i_at (infoOf r)) (i_path (infoOf r))) as [q| | |] eqn:EP; [exfalso; apply HP; right; exists q; exact EP| | |]; do 2 eexists; apply HG.
Qed.
Lemma run_mixed d rs : cleanDoc d -> Forall cleanPart rs -> forall t n a k (f : frame) (fs : list frame) s, allBlank t = true -> exists t' n' a' k' f' fs', allBlank t' = true /\ (n = "g" -> n' = "g") /\ (~ Forall placed rs -> n' = "g") /\ run (MText t, (n, a, k) :: f :: fs) (String.concat "" (map (fun r => fst (SvgWrite.render co d r)) rs) ++ s) = run (MText t', (n', a', k') :: f' :: fs') s.
Proof.
  intros CD. induction rs as [|r rs IH]; intros HC t n a k f fs s Ht.
  - exists t, n, a, k, f, fs. split; [exact Ht|]. split; [auto|]. split; [intros H; exfalso; apply H; constructor|reflexivity].
  - inversion HC as [|? ? C1 C2]; subst. cbn [map]. rewrite concat_cons, TextProofs.app_assoc_s. assert (DP : placed r \/ ~ placed r). { unfold placed. destruct (String.eqb_spec (i_label (infoOf r)) "") as [E|E]; [left; left; exact E|]. destruct (PointPathAttributeText co (i_at (infoOf r)) (i_path (infoOf r))) as [q| | |] eqn:EP; [left; right; exists q; reflexivity| | |]; right; intros [C|(q & C)]; congruence. }
    destruct DP as [HP|HP].
    + destruct (run_part d r t ((n, a, k) :: f :: fs) (String.concat "" (map (fun r => fst (SvgWrite.render co d r)) rs) ++ s) CD C1 HP Ht I) as (x & Hx & EQ). cbn [child] in EQ. destruct (IH C2 nl n a (k ++ [x])%list f fs s eq_refl) as (t' & n' & a' & k' & f' & fs' & H1 & H2 & H3 & H4). exists t', n', a', k', f', fs'. split; [exact H1|]. split; [exact H2|]. split; [|exact (eq_trans EQ H4)]. intros HN. apply H3. intros HF. apply HN. constructor; assumption.
    + destruct (run_unplaced d r t ((n, a, k) :: f :: fs) (String.concat "" (map (fun r => fst (SvgWrite.render co d r)) rs) ++ s) CD C1 HP Ht I) as (a1 & k1 & EQ). destruct (IH C2 nl "g" a1 k1 (n, a, k) (f :: fs) s eq_refl) as (t' & n' & a' & k' & f' & fs' & H1 & H2 & H3 & H4). exists t', n', a', k', f', fs'. split; [exact H1|]. split; [auto|]. split; [auto|exact (eq_trans EQ H4)].
Qed.
(** If the place of one label is not found, the whole text is not a document: the group of the part is never closed, and nobody is told. *)
Theorem C77_unplaced_refuted d : cleanDoc d -> Forall cleanPart (d_renderables d) -> ~ Forall placed (d_renderables d) -> readXml (WriteSVG co d) = None.
Proof.
  intros CD HC HP. unfold readXml, WriteSVG. fold top. rewrite run_start by exact CD. destruct (run_mixed d _ CD HC (nl ++ tb) "svg" (svgAttrs d) [] top [] end_ eq_refl) as (t & n & a & k & f & fs & H1 & _ & H2 & ->). rewrite (H2 HP). unfold end_, line. cbn [append]. rewrite run_open by (exact H1 || exact I). reflexivity.
Qed.
End Claims.

(** *** examples *)
Definition exInfo (id label at_ : string) : info FNum := mkInfo id [mv 0 0 0 0; ln 0 0 4 3] label at_.
Definition exRend (id label at_ : string) (x y : Z) : renderable FNum (info FNum) := mkRenderable (exInfo id label at_, fz 4, fz 3) (pt x y) false.
Definition exDoc (rs : list (renderable FNum (info FNum))) : svgdoc FNum := NewSVGDocument (fz 20) (fz 12) Inches rs.
Definition exClean (id label : string) : bool := every okVal id && every okText label.
Lemma exDoc_clean rs : cleanDoc (exDoc rs). Proof. split; [vm_compute; reflexivity|]. split; vm_compute; reflexivity. Qed.
Example C77_document_ex : let d := exDoc [exRend "lid" "" "" 0 0; exRend "side" "left side" "$TOP_LEFT" 5 0] in
  cleanDoc d /\ Forall cleanPart (d_renderables d) /\ Forall (placed noCurves) (d_renderables d) /\
  readXml (WriteSVG noCurves d) = Some (Elem "svg" [("width", "20.000in"); ("height", "12.000in"); ("viewBox", "0.000 0.000 20.000 12.000"); ("xmlns", "http://www.w3.org/2000/svg"); ("xmlns:xlink", "http://www.w3.org/1999/xlink")]
    [Elem "g" [("transform", "translate(0.000 0.000)")] [Elem "path" [("id", "lid"); ("d", "M 0.000 0.000 L 4.000 3.000"); ("style", "fill:none;stroke:black;stroke-width:0.012")] []];
     Elem "g" [("transform", "translate(5.000 0.000)")] [Elem "path" [("id", "side"); ("d", "M 0.000 0.000 L 4.000 3.000"); ("style", "fill:none;stroke:black;stroke-width:0.012")] [];
        Elem "text" [("x", "0.000"); ("y", "0.000"); ("style", "font: 0.118pt serif; fill: blue")] [Text "left side"]]]).
Proof.
  intros d. split; [apply exDoc_clean|]. split; [repeat constructor; vm_compute; reflexivity|]. split; [|vm_compute; reflexivity]. constructor; [left; reflexivity|]. constructor; [|constructor]. right. assert (H : match PointPathAttributeText noCurves "$TOP_LEFT" [mv 0 0 0 0; ln 0 0 4 3] with Ok _ => true | _ => false end = true) by (vm_compute; reflexivity).
  unfold exRend, infoOf, exInfo. cbn [r_part fst i_at i_path]. destruct (PointPathAttributeText noCurves "$TOP_LEFT" _) as [q| | |]; try discriminate H. exists q. reflexivity.
Qed.
(** a label at "$WIDTH", which is allowed as a handle but is no point *)
Example C77_unplaced_ex : let d := exDoc [exRend "side" "left side" "$WIDTH" 5 0] in cleanDoc d /\ Forall cleanPart (d_renderables d) /\ ~ Forall (placed noCurves) (d_renderables d) /\ ToPathAttr (N := FNum) "$WIDTH" = Some "$WIDTH" /\ readXml (WriteSVG noCurves d) = None.
Proof.
  intros d. split; [apply exDoc_clean|]. split; [repeat constructor; vm_compute; reflexivity|]. split; [|split; [reflexivity|vm_compute; reflexivity]]. intros H. apply Forall_inv in H. destruct H as [H|(q & H)]; [discriminate H|].
  assert (E : match PointPathAttributeText noCurves "$WIDTH" [mv 0 0 0 0; ln 0 0 4 3] with Ok _ => true | _ => false end = false) by (vm_compute; reflexivity). unfold exRend, infoOf, exInfo in H. cbn [r_part fst i_at i_path] in H. rewrite H in E. discriminate E.
Qed.

(** Texts are written as they are: an id with a quote, a label with an ampersand or a smaller sign is no document any more. *)
Theorem C77_escape_refuted : readXml (WriteSVG noCurves (exDoc [exRend "3"" side" "" "" 5 0])) = None /\ readXml (WriteSVG noCurves (exDoc [exRend "side" "nuts & bolts" "$TOP_LEFT" 5 0])) = None /\
  readXml (WriteSVG noCurves (exDoc [exRend "side" "a<b" "$TOP_LEFT" 5 0])) = None.
Proof. split; [vm_compute; reflexivity|]. split; vm_compute; reflexivity. Qed.

(** Outlines are black, not filled and three tenths of a millimetre wide, whatever the unit of the sheet; labels are three millimetres high. *)
Theorem C77_stroke (w h : T FNum) rs : let style u := d_cut (NewSVGDocument w h u rs) in let labels u := d_labels (NewSVGDocument w h u rs) in
  style MilliMeters = "fill:none;stroke:black;stroke-width:0.300" /\ style Inches = "fill:none;stroke:black;stroke-width:0.012" /\
  labels MilliMeters = "font: 3.000pt serif; fill: blue" /\ labels Inches = "font: 0.118pt serif; fill: blue".
Proof. repeat split; cbn [NewSVGDocument d_cut d_labels]; vm_compute; reflexivity. Qed.
Example C77_stroke_ex : d_cut (exDoc [exRend "lid" "" "" 0 0]) = "fill:none;stroke:black;stroke-width:0.012". Proof. apply (C77_stroke (fz 20) (fz 12)). Qed.
Print Assumptions C77_stroke.
