(** C83: importing a sheet that the program wrote. *)
From Coq Require Import String Ascii List ZArith Bool Lia.
From Verif Require Import Num FloatNum PathModel DrawModel SegOps TransformsModel GeomTransforms SvgParse AttrText UnitsModel BinPack PlanSet TextProofs PathSpec PathProofs PrecisionProofs IeeeProofs SvgProofs SvgProofs2 JoinProofs2
  SvgWrite XmlSpec SvgElement SvgDecode Prop_C02 Prop_C13 Prop_C51 Prop_C77 Prop_C82 Witness.
Import ListNotations.
Local Open Scope string_scope.
Local Open Scope list_scope.

Notation rendF := (renderable FNum (info FNum)).
(** the outline of a part as it is in the file: every coordinate rounded to the decimals of the sheet *)
Definition outlineOf (d : svgdoc FNum) (r : rendF) (q : path FNum) : Prop := Forall2 (seg_close (d_precision d)) (i_path (infoOf r)) q /\ linked origin q.
(** a part as the program renders it: its coordinates are float64 numbers and its path begins with a move *)
Definition rendered (r : rendF) : Prop := Forall go_seg (i_path (infoOf r)) /\ exists s e p, i_path (infoOf r) = Move s e :: p.
Definition unlabelled (r : rendF) : Prop := i_label (infoOf r) = "".

Lemma sameNum_trans {N : Num} (x y z : T N) : sameNum x y -> sameNum y z -> sameNum x z.
Proof. intros [->|[H ->]] [->|[G ->]]; unfold sameNum; auto. Qed.
Lemma drawnAs_trans {N : Num} (a b c : @stroke N) : drawnAs a b -> drawnAs b c -> drawnAs a c.
Proof.
  assert (P : forall x y z : Pt N, samePt x y -> samePt y z -> samePt x z) by (intros x y z [A B] [C D]; split; eapply sameNum_trans; eauto).
  destruct a, b, c; cbn; try tauto; intros; intuition eauto.
Qed.
Lemma Forall2_trans {A} (R : A -> A -> Prop) : (forall a b c, R a b -> R b c -> R a c) -> forall l m n, Forall2 R l m -> Forall2 R m n -> Forall2 R l n.
Proof. intros H l m n F. revert n. induction F; intros n G; inversion G; subst; constructor; eauto. Qed.

(** the path element and the group of a part *)
Lemma import_path d r p : rendered r -> readsAs (XE "path" [("id", i_id (infoOf r)); ("d", SvgString (i_path (infoOf r)) (d_precision d)); ("style", d_cut d)] []) p ->
  exists q, ParsePathFromSvg (SvgString (i_path (infoOf r)) (d_precision d)) = Ok q /\ ElementToPath (asElement p) = Ok q /\ outlineOf d r q.
Proof.
  intros [G _] R. inversion R as [n a ks a' ks' A F]; subst. destruct (C02_binary64_partial (d_precision d) _ G) as (q & E & C & L & _). exists q. split; [exact E|]. split; [|split; assumption].
  cbn [asElement local afterColon]. cbn [ElementToPath String.eqb Ascii.eqb Bool.eqb orb]. unfold mustString at 1. rewrite A. change (lastValue "d" [("id", i_id (infoOf r)); ("d", SvgString (i_path (infoOf r)) (d_precision d)); ("style", d_cut d)]) with (Some (SvgString (i_path (infoOf r)) (d_precision d))).
  cbv iota. rewrite E. cbn [bind]. apply no_transform.
Qed.
Ltac cont := unfold container; cbn [In]; intuition discriminate.
Lemma import_group co d r x e : rendered r -> unlabelled r -> partNode co d r x -> readsAs x e ->
  exists q, ParsePathFromSvg (SvgString (i_path (infoOf r)) (d_precision d)) = Ok q /\ ElementToPath (asElement e) = Ok (clonePath q) /\ outlineOf d r q.
Proof.
  intros G U (ls & -> & [[_ ->]|[NE _]]) R; [|contradiction]. inversion R as [n a ks a' ks' A F]; subst. cbn [elements filter] in F. inversion F as [|? p ? ? Rp F']; subst. inversion F'; subst.
  destruct (import_path d r p G Rp) as (q & E & EP & O). exists q. split; [exact E|]. split; [|exact O]. cbn [asElement local afterColon Ascii.eqb Bool.eqb map]. rewrite container_branch by cont. rewrite EP. reflexivity.
Qed.
(** a group with a label stops the program *)
Lemma import_label co d r x e : rendered r -> ~ unlabelled r -> partNode co d r x -> readsAs x e -> @ElementToPath FNum (asElement e) = Panic.
Proof.
  intros G U (ls & -> & [[E _]|[_ (q & _ & ->)]]) R; [contradiction|]. inversion R as [n a ks a' ks' A F]; subst. unfold labelNodes in F. cbn [elements filter] in F. inversion F as [|? p ? ? Rp F']; subst. inversion F' as [|? t ? ? Rt F'']; subst. inversion F''; subst.
  destruct (import_path d r p G Rp) as (q' & _ & EP & _). cbn [asElement local afterColon Ascii.eqb Bool.eqb map]. rewrite container_branch by cont. rewrite EP. cbn [bind].
  inversion Rt as [n a ks at' ks' A2 F2]; subst. assert (ks' = []). { destruct (allBlank (i_label (infoOf r))); cbn [elements filter] in F2; inversion F2; reflexivity. } subst ks'.
  cbn [asElement local afterColon Ascii.eqb Bool.eqb map]. rewrite (C51_panic_refuted FNum) by cont. reflexivity.
Qed.
Lemma clone_move (q : path FNum) (p : path FNum) n : (exists s e r, p = Move s e :: r) -> Forall2 (seg_close n) p q -> exists s e r, clonePath q = Move s e :: r.
Proof. intros (s & e & r & ->) F. inversion F as [|g h l l' C F']; subst. destruct h; try destruct C. cbn [clonePath map cloneSeg]. eauto. Qed.

Section Sheets.
Variable co : CurveOps FNum.
(** what the file of the sheet is, for Go's XML decoder *)
Definition fileOf (d : svgdoc FNum) (ts : list token) : Prop := exists x, readXml (WriteSVG co d) = Some x /\ file x ts.
Definition proper (d : svgdoc FNum) : Prop := cleanDoc d /\ Forall cleanPart (d_renderables d) /\ Forall rendered (d_renderables d) /\ d_renderables d <> [].

Lemma import_groups d rs xs es : Forall rendered rs -> Forall unlabelled rs -> Forall2 (partNode co d) rs xs -> Forall2 readsAs xs es ->
  exists qs, Forall2 (fun r q => ParsePathFromSvg (SvgString (i_path (infoOf r)) (d_precision d)) = Ok q) rs qs /\ Forall2 (fun e q => ElementToPath e = Ok q) (map asElement es) (map clonePath qs) /\ Forall2 (outlineOf d) rs qs.
Proof.
  intros G U P. revert es G U. induction P as [|r x rs xs Pr P IH]; intros es G U R; inversion R as [|? e ? es' Re R']; subst; [exists []; repeat split; constructor|].
  inversion G; inversion U; subst. destruct (IH es') as (qs & Q1 & Q2 & Q3); auto. destruct (import_group co d r x e) as (q & E1 & E2 & O); auto. exists (q :: qs). split; [constructor; auto|]. split; constructor; auto.
Qed.
Lemma elements_parts d rs xs : Forall2 (partNode co d) rs xs -> elements xs = xs.
Proof. induction 1 as [|r x rs xs (ls & -> & _) F IH]; [reflexivity|]. cbn [elements filter]. unfold elements in IH. rewrite IH. reflexivity. Qed.

(** Importing a sheet without labels draws the outline of every part, in the order of the sheet, with the coordinates rounded as in the file. *)
Theorem C83_outlines d ts broken : proper d -> Forall unlabelled (d_renderables d) -> fileOf d ts ->
  exists q outs, ParseSVG (ts, broken) = Ok q /\ Forall2 (outlineOf d) (d_renderables d) outs /\ Forall2 drawnAs (concat (map (strokes origin) outs)) (strokes origin q).
Proof.
  intros (CD & CP & G & NE) U (x & RX & FX). assert (PL : Forall (placed co) (d_renderables d)) by (eapply Forall_impl; [|exact U]; intros r H; left; exact H).
  destruct (C77_document co d CD CP PL) as (xs & RX' & P). rewrite RX in RX'. injection RX' as ->. destruct (C82_tree _ _ broken FX) as (e & E & R). inversion R as [n a ks a' es A F]; subst. rewrite (elements_parts d _ xs P) in F.
  destruct (import_groups d _ xs es G U P F) as (qs & Q1 & Q2 & Q3). unfold ParseSVG. rewrite E. cbn [asElement local afterColon Ascii.eqb Bool.eqb].
  destruct qs as [|q0 qs]; [inversion Q3; congruence|]. cbn [map] in Q2.
  destruct (C51_group FNum "svg" a' (map asElement es) (clonePath q0) (map clonePath qs) origin) as (q & EQ & S); [cont|exact Q2| |].
  { inversion Q3 as [|r0 q0' rs qs' O0 O]; subst. assert (Grs : Forall rendered rs) by (rewrite <- H in G; inversion G; assumption). clear -O Grs. induction O as [|r q rs qs [O1 _] O IH]; constructor; inversion Grs; subst; auto. right. eapply clone_move; [|exact O1]. apply H1. }
  exists q, (q0 :: qs). split; [exact EQ|]. split; [exact Q3|]. eapply Forall2_trans; [exact drawnAs_trans| |exact S]. cbn [map concat]. apply Forall2_app; [apply clone_strokes, same_refl|].
  apply Forall2_concat. clear. induction qs as [|q qs IH]; [constructor|]. cbn [map]. constructor; [apply clone_strokes, same_refl|exact IH].
Qed.

(** The places of the parts are lost: two sheets with the same parts at any other places, turned or not, are imported as the same path. *)
Theorem C83_place_refuted d d' ts ts' broken broken' : proper d -> proper d' -> Forall unlabelled (d_renderables d) -> d_precision d' = d_precision d ->
  map r_part (d_renderables d') = map r_part (d_renderables d) -> fileOf d ts -> fileOf d' ts' -> @ParseSVG FNum (ts', broken') = @ParseSVG FNum (ts, broken).
Proof.
  intros (CD & CP & G & NE) (CD' & CP' & G' & NE') U EP EM (x & RX & FX) (x' & RX' & FX').
  assert (U' : Forall unlabelled (d_renderables d')).
  { clear -U EM. revert U EM. generalize (d_renderables d) (d_renderables d'). intros l. induction l as [|r l IH]; intros [|r' l'] U EM; try discriminate; constructor; inversion U; subst; injection EM as E1 E2; [unfold unlabelled, infoOf in *; rewrite E1; assumption|auto]. }
  assert (PL : forall l, Forall unlabelled l -> Forall (placed co) l) by (intros l H; eapply Forall_impl; [|exact H]; intros r Hr; left; exact Hr).
  destruct (C77_document co d CD CP (PL _ U)) as (xs & R1 & P1). destruct (C77_document co d' CD' CP' (PL _ U')) as (xs' & R2 & P2). rewrite RX in R1. injection R1 as ->. rewrite RX' in R2. injection R2 as ->.
  destruct (C82_tree _ _ broken FX) as (e & E & R). inversion R as [n a ks a1 es A F]; subst. rewrite (elements_parts d _ xs P1) in F.
  destruct (C82_tree _ _ broken' FX') as (e' & E' & R'). inversion R' as [n a ks a2 es' A' F']; subst. rewrite (elements_parts d' _ xs' P2) in F'.
  destruct (import_groups d _ xs es G U P1 F) as (qs & Q1 & Q2 & _). destruct (import_groups d' _ xs' es' G' U' P2 F') as (qs' & Q1' & Q2' & _).
  assert (QQ : qs' = qs).
  { rewrite EP in Q1'. clear -Q1 Q1' EM. revert qs' Q1' qs Q1 EM. generalize (d_renderables d) (d_renderables d'). intros l l' qs' Q1'. revert l. induction Q1' as [|r' q' l' qs' H' Q IH]; intros [|r l] qs Q1 EM; try discriminate; inversion Q1; subst; [reflexivity|]. injection EM as E1 E2. f_equal; [|eapply IH; eauto].
    unfold infoOf in *. rewrite E1 in H'. congruence. }
  subst qs'. unfold ParseSVG. rewrite E, E'. cbn [asElement local afterColon Ascii.eqb Bool.eqb]. rewrite !container_branch by cont. rewrite (all_children _ _ Q2), (all_children _ _ Q2'). reflexivity.
Qed.

(** A sheet with a label cannot be imported: the text of the label has no children to join, which stops the program. *)
Theorem C83_label_refuted d ts broken : proper d -> Forall (placed co) (d_renderables d) -> ~ Forall unlabelled (d_renderables d) -> fileOf d ts -> @ParseSVG FNum (ts, broken) = Panic.
Proof.
  intros (CD & CP & G & NE) PL U (x & RX & FX). destruct (C77_document co d CD CP PL) as (xs & RX' & P). rewrite RX in RX'. injection RX' as ->. destruct (C82_tree _ _ broken FX) as (e & E & R). inversion R as [n a ks a' es A F]; subst. rewrite (elements_parts d _ xs P) in F.
  unfold ParseSVG. rewrite E. cbn [asElement local afterColon Ascii.eqb Bool.eqb]. rewrite container_branch by cont.
  match goal with |- bind (?f ?l) ?k = Panic => assert (EA : f l = Panic); [|rewrite EA; reflexivity] end.
  clear -P F G U. revert es F G U. induction P as [|r x rs xs Pr P IH]; intros es F G U; [destruct U; constructor|]. inversion F as [|? e ? es' Re F']; subst. inversion G; subst. cbn [map].
  destruct (string_dec (i_label (infoOf r)) "") as [L|L].
  - destruct (import_group co d r x e) as (q & _ & EQ & _); auto. rewrite EQ. cbn [bind]. rewrite (IH es'); auto.
  - rewrite (import_label co d r x e) by auto. reflexivity.
Qed.
End Sheets.
Print Assumptions C83_outlines.
Print Assumptions C83_place_refuted.
Print Assumptions C83_label_refuted.

(** *** every document has such a file *)
Fixpoint tokensOf (x : xnode) : list token :=
  match x with
  | XmlSpec.Text s => [TChars s]
  | XmlSpec.Elem n a ks => TStart ("", local n) (map (fun kv => (("", local (fst kv)), snd kv)) a) :: concat (map tokensOf ks) ++ [TEnd ("", local n)]
  end.
Fixpoint solid (x : xnode) : bool := match x with XmlSpec.Text s => negb (every white s) | XmlSpec.Elem _ _ ks => forallb solid ks end.
Lemma same_attrs a : Forall2 sameAttr a (map (fun kv => (("", local (fst kv)), snd kv)) a).
Proof. induction a; constructor; [split; reflexivity|assumption]. Qed.
Lemma inside_all ks : forallb solid ks = true -> inside ks (concat (map tokensOf ks)).
Proof.
  enough (G : forall m ks, (fold_right (fun k n => (xsize k + n)%nat) 0%nat ks < m)%nat -> forallb solid ks = true -> inside ks (concat (map tokensOf ks))) by (apply (G (S (fold_right (fun k n => (xsize k + n)%nat) 0%nat ks))); lia). clear ks.
  induction m as [|m IH]; intros ks L S; [lia|]. destruct ks as [|[n a cs|t] r]; [constructor| |]; cbn [forallb solid fold_right xsize] in *; apply andb_prop in S as [S1 S2].
  - cbn [map tokensOf concat]. cbn [app]. rewrite <- app_assoc. cbn [app]. apply in_elem; [apply same_attrs|apply IH; [lia|exact S1]|apply IH; [lia|exact S2]].
  - cbn [map tokensOf concat app]. apply in_text; [intros B; unfold blankText in B; rewrite B in S1; discriminate|apply IH; [lia|exact S2]].
Qed.
Lemma file_any n a ks : forallb solid ks = true -> file (XE n a ks) (tokensOf (XE n a ks)).
Proof. intros S. apply (file_of (XE n a ks) [] n a ks "" (map (fun kv => (("", local (fst kv)), snd kv)) a) (concat (map tokensOf ks)) []); [reflexivity|constructor|apply same_attrs|apply inside_all, S]. Qed.

(** *** examples: two parts side by side, and one with a label *)
Definition bare : svgdoc FNum := exDoc [exRend "lid" "" "" 0 0; exRend "side" "" "" 5 0].
Definition moved : svgdoc FNum := exDoc [exRend "lid" "" "" 7 2; exRend "side" "" "" 0 0].
Definition labelled : svgdoc FNum := exDoc [exRend "lid" "" "" 0 0; exRend "side" "left side" "$TOP_LEFT" 5 0].
Lemma ex_proper l : Forall (fun r => exists id label at_ x y, r = exRend id label at_ x y /\ every okVal id = true /\ every okText label = true) l -> l <> [] -> proper (exDoc l).
Proof.
  intros F NE. split; [apply exDoc_clean|]. split; [|split; [|exact NE]].
  - eapply Forall_impl; [|exact F]. intros r (id & label & at_ & x & y & -> & A & B). split; assumption.
  - eapply Forall_impl; [|exact F]. intros r (id & label & at_ & x & y & -> & _). split; [|exists (pt 0 0), (pt 0 0), [ln 0 0 4 3]; reflexivity]. repeat constructor.
Qed.
Ltac proper_ex := apply ex_proper; [|discriminate]; repeat (apply Forall_cons; [do 5 eexists; split; [reflexivity|split; reflexivity]|]); apply Forall_nil.
Lemma file_ex d n a ks : readXml (WriteSVG noCurves d) = Some (XE n a ks) -> forallb solid ks = true -> fileOf noCurves d (tokensOf (XE n a ks)).
Proof. intros R S. exists (XE n a ks). split; [exact R|]. apply file_any, S. Qed.
Example C83_ex : proper bare /\ proper moved /\ proper labelled /\ Forall unlabelled (d_renderables bare) /\ map r_part (d_renderables moved) = map r_part (d_renderables bare) /\ d_precision moved = d_precision bare /\ ~ Forall unlabelled (d_renderables labelled) /\ Forall (placed noCurves) (d_renderables labelled).
Proof.
  split; [proper_ex|]. split; [proper_ex|]. split; [proper_ex|]. split; [repeat (apply Forall_cons; [reflexivity|]); apply Forall_nil|]. split; [reflexivity|]. split; [reflexivity|]. split; [intros H; inversion H as [|? ? _ H2]; inversion H2 as [|? ? H3]; discriminate H3|].
  apply C77_document_ex.
Qed.
Definition fileTokens (d : svgdoc FNum) : list token := match readXml (WriteSVG noCurves d) with Some x => tokensOf x | None => [] end.
Example C83_files : fileOf noCurves bare (fileTokens bare) /\ fileOf noCurves moved (fileTokens moved) /\ fileOf noCurves labelled (fileTokens labelled).
Proof.
  assert (G : forall d, match readXml (WriteSVG noCurves d) with Some (XmlSpec.Elem _ _ ks) => forallb solid ks | _ => false end = true -> fileOf noCurves d (fileTokens d)).
  { intros d H. unfold fileTokens. destruct (readXml (WriteSVG noCurves d)) as [[n a ks|]|] eqn:E; try discriminate. apply file_ex; assumption. }
  split; [|split]; apply G; vm_compute; reflexivity.
Qed.
Example C83_import_ex : ParseSVG (fileTokens bare, false) = Ok [mv 0 0 0 0; ln 0 0 4 3; mv 4 3 0 0; mv 0 0 0 0; ln 0 0 4 3] /\
  ParseSVG (fileTokens moved, false) = Ok [mv 0 0 0 0; ln 0 0 4 3; mv 4 3 0 0; mv 0 0 0 0; ln 0 0 4 3] /\ @ParseSVG FNum (fileTokens labelled, false) = Panic.
Proof. split; [byr|]. split; [byr|]. byr. Qed.
