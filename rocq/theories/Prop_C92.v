(** C92: a design is drawn part by part: each part is on the sheets as often as its repeat says, with its own label; nothing is written if a part cannot be drawn. *)
From Coq Require Import String Ascii List ZArith NArith Bool Lia Permutation Reals Lra.
From Verif Require Import Num RealNum FloatNum RealTrig PathModel DrawModel SegOps TransformsModel Bezier GeomTransforms SvgParse AttrText UnitsModel BinPack BinPackProofs BinPackGeom BinPackPad PlanSet PlanSetProofs
  TextProofs SvgWrite XmlSpec Output Deliver Components PartSplit RenderDoc PathSpec PathProofs GeomSpec BezierProofs GeomProofs HandleProofs Within CompProofs Prop_C25 Prop_C64 Prop_C67 Prop_C69 Prop_C77 Prop_C78 Prop_C84 Witness.
Import ListNotations.
Local Open Scope string_scope.

(** ** any arithmetic *)
Section Any.
Context {N : Num}.
Variable co : CurveOps N.
Variable tr : Trig N.
Variable dop : Z.
Variables kfuel sfuel lfuel : nat.
Notation part := (PlanSet.rpart N (info N)).
Notation finished := (RenderParts co tr dop kfuel sfuel lfuel).
Notation rendered := (RenderDesign co tr dop kfuel sfuel lfuel).
Notation labelsOf := (map (fun q : part => i_label (infoP q))).

Lemma units_two s d : d = Inches \/ d = MilliMeters -> MustUnits s d = Inches \/ MustUnits s d = MilliMeters.
Proof. intros H. unfold MustUnits, NewUnits. destruct (_ || _); [left; reflexivity|]. destruct (_ || _); [right; reflexivity|exact H]. Qed.
Lemma addAll_app f w h p (qs rs : list part) : forall ds, addAll f w h p ds (qs ++ rs)%list = bind (addAll f w h p ds qs) (fun ds' => addAll f w h p ds' rs).
Proof.
  induction qs as [|q qs IH]; intros ds; [reflexivity|]. cbn [app addAll]. destruct (addPart f w h p ds q) as [[[] ds']| | |]; cbn [bind]; try reflexivity. apply IH.
Qed.
Lemma initParts_all w h p parts qss : Forall2 (fun d qs => finished d = Ok qs) parts qss -> forall ds, initParts co tr dop kfuel sfuel lfuel w h p ds parts = addAll 3 w h p ds (List.concat qss).
Proof.
  induction 1 as [|d qs parts qss E _ IH]; intros ds; [reflexivity|]. cbn [initParts List.concat]. rewrite E. cbn [bind]. rewrite addAll_app. destruct (addAll 3 w h p ds qs); cbn [bind]; auto.
Qed.
Lemma rendered_deliver d qss b before : Forall2 (fun d qs => finished d = Ok qs) (ds_parts d) qss ->
  rendered d b before = Deliver co (docWidth d) (docHeight d) (docPadding d) (docUnits d) (List.concat qss) b before.
Proof.
  intros H. unfold RenderDesign, Deliver, SheetTexts, Init. rewrite (initParts_all _ _ _ _ _ H). destruct (addAll 3 _ _ _ _ _); reflexivity.
Qed.

Context (L : PackLaws N).
(** When the parts of a design can be drawn, whatever their part transformers, what is written are documents that together have what came out, each as often as it came out; the padding, size
    and units may be given or left out.  No other file is touched. *)
Theorem C92_sheets d qss b before : Forall2 (fun d qs => finished d = Ok qs) (ds_parts d) qss -> fin L (docWidth d) -> fin L (docHeight d) ->
  Forall (okPart L (docPadding d)) (List.concat qss) -> Forall (plain co) (List.concat qss) ->
  exists after xs, rendered d b before = Ok after /\ holds after b xs /\ onlyThese before after b (List.length xs) /\
    Permutation (flat_map outlines xs) (map outlineOf (List.concat qss)) /\ Permutation (flat_map words xs) (flat_map labelOf (List.concat qss)).
Proof.
  intros H Fw Fh HO HP. rewrite (rendered_deliver d qss b before H). apply (C84_written co L); try assumption. apply units_two. left. reflexivity.
Qed.

(** A part that cannot be drawn, whichever it is, and nothing is written, for the parts before it either. *)
Theorem C92_failure d qss bad more b before : ds_parts d = (map fst qss ++ bad :: more)%list -> Forall (fun e => finished (fst e) = Ok (snd e)) qss -> finished bad = Err ->
  fin L (docWidth d) -> fin L (docHeight d) -> Forall (okPart L (docPadding d)) (flat_map snd qss) -> rendered d b before = Err.
Proof.
  intros E H HB Fw Fh HO. unfold RenderDesign. rewrite E. clear E.
  assert (G : forall ds, Forall (sheetOk L (docWidth d) (docHeight d) (docPadding d)) ds -> initParts co tr dop kfuel sfuel lfuel (docWidth d) (docHeight d) (docPadding d) ds (map fst qss ++ bad :: more)%list = Err).
  { induction H as [|e qss He _ IH]; intros ds Hds; cbn [map app initParts]; [rewrite HB; reflexivity|]. rewrite He. cbn [bind]. cbn [flat_map] in HO. apply Forall_app in HO. destruct HO as [H1 H2].
    destruct (addAll_spec L _ _ (docPadding d) Fw Fh (snd e) H1 ds Hds) as (ds' & -> & Hds' & _). cbn [bind]. exact (IH H2 ds' Hds'). }
  rewrite G; [reflexivity|]. constructor; [|constructor]. apply newSheet_ok; assumption.
Qed.
(** A part transformer of a type that does not exist is an error, whatever the part, even if it is repeated 0 times. *)
Lemma each_makePT_unknown ts : Exists (fun t => pt_type t <> "splitter" /\ pt_type t <> "lathe") ts -> each (makePT co tr dop kfuel sfuel lfuel) ts = Err.
Proof.
  induction 1 as [t r [A B]|t r _ IH]; cbn [each]; unfold makePT at 1; [apply String.eqb_neq in A, B; rewrite A, B; reflexivity|].
  destruct (String.eqb _ _); [|destruct (String.eqb _ _)]; cbn [bind]; rewrite ?IH; reflexivity.
Qed.
Theorem C92_unknown d : Exists (fun t => pt_type t <> "splitter" /\ pt_type t <> "lathe") (pd_transformers d) -> forall qs, finished d <> Ok qs.
Proof. intros H qs. unfold RenderParts. rewrite (each_makePT_unknown _ H). destruct (each _ (upto _)); cbn [bind]; discriminate. Qed.

(** ** labels *)
Lemma last_colon a : forall b s t, all_ch isDigit s = true -> all_ch isDigit t = true -> a ++ ":" ++ s = b ++ ":" ++ t -> a = b /\ s = t.
Proof.
  assert (NO : forall u v w, all_ch isDigit v = true -> v = u ++ ":" ++ w -> False). { intros u v w H ->. rewrite all_ch_app in H. apply andb_prop in H. destruct H as [_ H]. discriminate H. }
  induction a as [|c a IH]; intros [|d b] s t Hs Ht E; cbn [append] in E.
  - injection E as ->. auto.
  - injection E as _ E. destruct (NO b s t Hs E).
  - injection E as _ E. symmetry in E. destruct (NO a t s Ht E).
  - injection E as -> E. destruct (IH b s t Hs Ht E) as [-> ->]. auto.
Qed.
Lemma numbered_inj a i b j : (0 <= i)%Z -> (0 <= j)%Z -> numbered a i = numbered b j -> a = b /\ i = j.
Proof. intros Hi Hj E. apply last_colon in E; try apply digits_int_digits. destruct E as [-> E]. apply digits_int_inj in E. split; [reflexivity|lia]. Qed.
Lemma numbered_nonempty a i : numbered a i <> "".
Proof. unfold numbered. destruct a; discriminate. Qed.
Lemma each_Forall2 {A B} (f : A -> res B) l bs : each f l = Ok bs -> Forall2 (fun a b => f a = Ok b) l bs.
Proof.
  revert bs. induction l as [|a l IH]; intros bs E; cbn [each] in E; [injection E as <-; constructor|]. destruct (f a) as [b| | |] eqn:EA; try discriminate. cbn [bind] in E.
  destruct (each f l) as [r| | |]; try discriminate. injection E as <-. constructor; [exact EA|]. apply IH. reflexivity.
Qed.
Lemma combine_seq_in {A} (l : list A) k x s : In (k, x) (combine (seq s (List.length l)) l) -> (s <= k)%nat.
Proof. intros H. apply in_combine_l, in_seq in H. lia. Qed.
Lemma lathe_labels f l q ps : LatheParts co dop f l q = Ok ps -> exists n, labelsOf ps = map (fun k => if String.eqb (i_label (infoP q)) "" then "" else numbered (i_label (infoP q)) (Z.of_nat k)) (seq 0 n).
Proof.
  destruct q as [[i w] h]. unfold LatheParts, infoP. cbn [fst]. destruct (Lathe _ _ _ _ _ _ _ _ _) as [[[[[ls a] b] c] e]| | |]; cbn [bind]; try discriminate. intros E; injection E as <-. exists (List.length ls).
  generalize 0%nat. induction ls as [|[[p w'] h'] ls IH]; intros s; [reflexivity|]. cbn [List.length seq combine map fst i_label]. f_equal. apply IH.
Qed.
Lemma NoDup_app_disjoint {A} (l m : list A) : NoDup l -> NoDup m -> (forall x, In x l -> ~ In x m) -> NoDup (l ++ m).
Proof. induction 1 as [|a l H _ IH]; intros Hm D; [exact Hm|]. cbn [app]. constructor; [intros I; apply in_app_or in I; destruct I as [I|I]; [auto|apply (D a); [left; auto|exact I]]|]. apply IH; [exact Hm|]. intros x I. apply D. right. exact I. Qed.
Lemma lathe_distinct f l ps qss : Forall2 (fun q qs => LatheParts co dop f l q = Ok qs) ps qss -> NoDup (labelsOf ps) -> ~ In "" (labelsOf ps) ->
  NoDup (labelsOf (List.concat qss)) /\ (forall s, In s (labelsOf (List.concat qss)) -> exists a i, In a (labelsOf ps) /\ (0 <= i)%Z /\ s = numbered a i).
Proof.
  induction 1 as [|q qs ps qss E _ IH]; intros ND NE; [split; [constructor|intros s []]|]. cbn [map] in *. inversion ND as [|? ? NI ND']; subst.
  destruct (IH ND') as [A B]; [intros I; apply NE; right; exact I|]. cbn [List.concat]. rewrite map_app. destruct (lathe_labels f l q qs E) as (n & EL).
  destruct (String.eqb_spec (i_label (infoP q)) "") as [E0|N0]; [exfalso; apply NE; left; exact E0|]. rewrite EL. split.
  - apply NoDup_app_disjoint; [|exact A|].
    + apply FinFun.Injective_map_NoDup; [|apply seq_NoDup]. intros i j H. apply numbered_inj in H; lia.
    + intros s I J. apply in_map_iff in I. destruct I as (k & <- & _). destruct (B _ J) as (a & i & Ia & Hi & H). apply numbered_inj in H; [|lia|lia]. destruct H as [<- _]. exact (NI Ia).
  - intros s I. apply in_app_or in I. destruct I as [I|I].
    + apply in_map_iff in I. destruct I as (k & <- & _). exists (i_label (infoP q)), (Z.of_nat k). split; [left; reflexivity|]. split; [lia|reflexivity].
    + destruct (B s I) as (a & i & Ia & Hi & H). exists a, i. split; [right; exact Ia|auto].
Qed.
(** the text a copy is labelled with: the label of the part, if there are several with a colon and the number of the copy *)
Definition copyText (d : partDef N) (i : nat) : string :=
  if (pd_repeat d <=? 1)%Z then pd_label d (Z.of_nat i) else if String.eqb (pd_label d (Z.of_nat i)) "" then "" else pd_label d (Z.of_nat i) ++ ":" ++ digits_int (N.of_nat i).
Lemma copyText_model d i : (if (1 <? pd_repeat d)%Z && negb (String.eqb (pd_label d (Z.of_nat i)) "") then numbered (pd_label d (Z.of_nat i)) (Z.of_nat i) else pd_label d (Z.of_nat i)) = copyText d i.
Proof.
  unfold copyText, numbered. replace (Z.to_N (Z.of_nat i)) with (N.of_nat i) by lia.
  destruct (Z.ltb_spec 1 (pd_repeat d)), (Z.leb_spec (pd_repeat d) 1); try lia; [|reflexivity]. destruct (String.eqb_spec (pd_label d (Z.of_nat i)) "") as [->|]; reflexivity.
Qed.
(** the copies before the part transformers *)
Lemma copies_spec d ps : each (renderCopy co d) (upto (pd_repeat d)) = Ok ps ->
  Forall2 (fun i q => renderOne co (pd_render d) (Z.of_nat i) = Ok (i_path (infoP q), snd (fst q), snd q) /\ i_id (infoP q) = pd_id d /\ i_label (infoP q) = copyText d i /\ i_at (infoP q) = pd_at d (Z.of_nat i)) (seq 0 (Z.to_nat (pd_repeat d))) ps.
Proof.
  intros E. apply each_Forall2 in E. unfold upto in E. revert ps E. generalize (seq 0 (Z.to_nat (pd_repeat d))) as l. induction l as [|i l IH]; intros ps E; inversion E as [|? q ? qs H F]; subst; constructor; [|apply IH; exact F].
  unfold renderCopy in H. destruct (renderOne co _ _) as [[[p w] h]| | |] eqn:ER; cbn [bind] in H; try discriminate. injection H as <-. rewrite copyText_model. unfold infoP. cbn [fst snd i_path i_id i_label i_at]. auto.
Qed.
Lemma copyText_distinct d l : NoDup l -> (1 < pd_repeat d)%Z -> Forall (fun i => pd_label d (Z.of_nat i) <> "") l -> NoDup (map (copyText d) l).
Proof.
  intros H R. induction H as [|i l NI _ IH]; intros F; [constructor|]. inversion F as [|? ? Fi Fl]; subst. cbn [map]. constructor; [|apply IH; exact Fl]. intros I. apply in_map_iff in I. destruct I as (j & E & Ij).
  unfold copyText in E. destruct (Z.leb_spec (pd_repeat d) 1); [lia|]. rewrite Forall_forall in Fl. pose proof (Fl j Ij) as Fj. apply String.eqb_neq in Fi, Fj. rewrite Fi, Fj in E. apply last_colon in E; try apply digits_int_digits. destruct E as [_ E]. apply digits_int_inj in E. assert (i = j) by lia. subst. contradiction.
Qed.
(** The labels tell apart what comes out of one part: the copies, and the layers that lathes cut from them. *)
Theorem C92_labels_differ d qs : (forall i, pd_label d i <> "") -> Forall (fun t => pt_type t = "lathe") (pd_transformers d) -> finished d = Ok qs -> NoDup (labelsOf qs).
Proof.
  intros HL HT E. unfold RenderParts in E. destruct (each (renderCopy co d) _) as [ps| | |] eqn:EP; cbn [bind] in E; try discriminate. apply copies_spec in EP.
  assert (EL : labelsOf ps = map (copyText d) (seq 0 (Z.to_nat (pd_repeat d)))). { clear -EP. induction EP as [|i q l ps (_ & _ & H & _) _ IH]; [reflexivity|]. cbn [map]. rewrite H, IH. reflexivity. }
  assert (ND : NoDup (labelsOf ps)).
  { rewrite EL. destruct (Z.leb_spec (pd_repeat d) 1) as [R|R].
    - assert (HR : Z.to_nat (pd_repeat d) = 0%nat \/ Z.to_nat (pd_repeat d) = 1%nat) by lia. destruct HR as [->| ->]; cbn [seq map]; repeat constructor; intros [].
    - apply copyText_distinct; [apply seq_NoDup|lia|]. apply Forall_forall. intros i _. apply HL. }
  assert (NE : ~ In "" (labelsOf ps)).
  { rewrite EL. intros I. apply in_map_iff in I. destruct I as (i & I & _). unfold copyText in I. pose proof (HL (Z.of_nat i)) as H. destruct (_ <=? _)%Z; [contradiction|]. apply String.eqb_neq in H. rewrite H in I. destruct (pd_label d (Z.of_nat i)); discriminate. }
  clear EP EL. destruct (each (makePT _ _ _ _ _ _) _) as [ts| | |] eqn:ET; cbn [bind] in E; try discriminate. apply each_Forall2 in ET. revert ps ND NE E. revert HT. generalize (pd_repeat d - 1)%Z. intros z HT.
  induction ET as [|t f ts fs Ht _ IH]; intros ps ND NE E; cbn [map transformAll] in E; [injection E as <-; exact ND|]. inversion HT as [|? ? T1 T2]; subst.
  unfold makePT in Ht. rewrite T1 in Ht. cbn in Ht. injection Ht as <-. destruct (each _ ps) as [qss| | |] eqn:EQ; cbn [bind] in E; try discriminate. apply each_Forall2 in EQ.
  destruct (lathe_distinct _ _ _ _ EQ ND NE) as [A B]. apply (IH T2 _ A); [|exact E]. intros I. destruct (B _ I) as (a & i & _ & _ & H). symmetry in H. exact (numbered_nonempty _ _ H).
Qed.
(** Finding: everything a splitter cuts loses its label. *)
Lemma leftAlone_same kf f sp i w h : leftAlone co sp (i_path i) = true -> TransformPart co tr dop kf (S f) sp (mkRPart (i_path i) w h) = Ok [mkRPart (i_path i) w h].
Proof.
  unfold leftAlone. cbn [TransformPart rp_path]. destruct (sp_auto sp).
  - destruct (sp_y sp); [discriminate|]. destruct (BoundingBoxTrimWhitespace co (i_path i)) as [[tl br]| | |]; cbn [bind]; try discriminate. destruct (_ || _); [discriminate|]. destruct (autoDecision _ _ _); try discriminate; [|reflexivity]. intros ->. reflexivity.
  - destruct (sp_y sp); [|discriminate]. intros ->. reflexivity.
Qed.
Theorem C92_split_label_refuted kf f sp (q : part) qs : Splitter co tr dop kf f sp q = Ok qs -> qs = [q] \/ Forall (fun r => i_label (infoP r) = "" /\ i_id (infoP r) = i_id (infoP q)) qs.
Proof.
  destruct q as [[i w] h]. unfold Splitter. destruct (leftAlone co sp (i_path i)); [intros E; injection E as <-; left; reflexivity|]. destruct (TransformPart _ _ _ _ _ _ _) as [l| | |]; cbn [bind]; try discriminate. intros E; injection E as <-. right.
  apply Forall_forall. intros r I. apply in_map_iff in I. destruct I as (x & <- & _). split; reflexivity.
Qed.
(** Finding: all that comes out of a part has the id of the part; on a sheet with two copies an id is there twice. *)
Theorem C92_ids_refuted d qs : finished d = Ok qs -> Forall (fun q => i_id (infoP q) = pd_id d) qs.
Proof.
  intros E. unfold RenderParts in E. destruct (each (renderCopy co d) _) as [ps| | |] eqn:EP; cbn [bind] in E; try discriminate. apply copies_spec in EP.
  assert (H : Forall (fun q => i_id (infoP q) = pd_id d) ps) by (clear -EP; induction EP as [|i q l ps (_ & H & _) _ IH]; constructor; assumption). clear EP.
  destruct (each (makePT _ _ _ _ _ _) _) as [ts| | |] eqn:ET; cbn [bind] in E; try discriminate. apply each_Forall2 in ET. revert ps H E. generalize (pd_repeat d - 1)%Z. intros z.
  induction ET as [|t f ts fs Ht _ IH]; intros ps H E; cbn [map transformAll] in E; [injection E as <-; exact H|]. destruct (each _ ps) as [qss| | |] eqn:EQ; cbn [bind] in E; try discriminate. apply each_Forall2 in EQ.
  apply (IH (List.concat qss)); [|exact E]. clear IH E. induction EQ as [|q qs' ps qss Hq _ IH]; [constructor|]. inversion H as [|? ? H1 H2]; subst. cbn [List.concat]. apply Forall_app. split; [|apply IH; exact H2].
  unfold makePT in Ht. destruct (String.eqb _ _); [|destruct (String.eqb _ _); [|discriminate]]; injection Ht as <-.
  - destruct (C92_split_label_refuted _ _ _ _ _ Hq) as [->|F]; [constructor; [exact H1|constructor]|]. eapply Forall_impl; [|exact F]. intros r [_ ->]. exact H1.
  - destruct q as [[i w] h]. unfold LatheParts in Hq. destruct (Lathe _ _ _ _ _ _ _ _ _) as [[[[[ls a] b] c] e]| | |]; cbn [bind] in Hq; try discriminate. injection Hq as <-. apply Forall_forall. intros r I. apply in_map_iff in I. destruct I as ([k [[p w'] h']] & <- & _). exact H1.
Qed.
End Any.

(** ** in exact arithmetic: what is on the sheets is what the parts draw *)
(** the design: sizes are numbers or left out, the padding is not negative *)
Definition number (o : option (T RNum)) (ok : R -> Prop) : Prop := match o with Some x => exists r, x = Fin r /\ ok r | None => True end.
(** a drawing with a width and a height, of any segments *)
Definition drawable (p : path RNum) : Prop := Forall (within (2 ^ 62)%R) p /\
  (exists x1 y1 x2 y2, inDrawing p x1 y1 /\ inDrawing p x2 y2 /\ x1 <> x2) /\ (exists x1 y1 x2 y2, inDrawing p x1 y1 /\ inDrawing p x2 y2 /\ y1 <> y2).
(** a part without part transformers: each copy has a drawing, a plain label, and one of the nine places of the box for it *)
Definition simplePart (d : partDef RNum) : Prop := pd_transformers d = [] /\ every okVal (pd_id d) = true /\
  forall i, (0 <= i < pd_repeat d)%Z -> (exists p, pd_render d i = Ok p /\ drawable p) /\ every okText (pd_label d i) = true /\ exists f, In (pd_at d i, f) boxNames.
(** the copies of a part, and of a design *)
Definition copiesOf (d : partDef RNum) : list (partDef RNum * nat) := map (fun i => (d, i)) (seq 0 (Z.to_nat (pd_repeat d))).

Lemma drawable_box p tl br : drawable p -> tightBox (inDrawing p) tl br -> (0 < X br - X tl)%R /\ (0 < Y br - Y tl)%R.
Proof.
  intros (_ & (x1 & y1 & x2 & y2 & A1 & A2 & A) & (x3 & y3 & x4 & y4 & B1 & B2 & B)) (_ & _ & (IX & _) & (IY & _)).
  assert (G : forall x y, inDrawing p x y -> (X tl <= x <= X br)%R /\ (Y tl <= y <= Y br)%R) by (intros x y H; split; [apply IX; exists y; exact H|apply IY; exists x; exact H]).
  pose proof (G _ _ A1). pose proof (G _ _ A2). pose proof (G _ _ B1). pose proof (G _ _ B2). lra.
Qed.
Lemma drawable_drawn p : drawable p -> drawn p <> [].
Proof. intros (_ & (x & y & _ & _ & H & _) & _) E. apply inDrawing_drawn in H. destruct H as (g & I & _). rewrite E in I. destruct I. Qed.
Lemma copyText_plain (d : partDef RNum) i : every okText (pd_label d (Z.of_nat i)) = true -> every okText (copyText d i) = true.
Proof.
  intros H. assert (G : every okText (digits_int (N.of_nat i)) = true).
  { pose proof (digits_int_digits (N.of_nat i)) as D. revert D. generalize (digits_int (N.of_nat i)). induction s as [|c s IH]; intros D; [reflexivity|]. cbn [all_ch every] in *. apply andb_prop in D. destruct D as [D1 D2].
    rewrite (IH D2), andb_true_r. unfold okText. destruct (Ascii.eqb_spec c "<") as [->|]; [discriminate D1|]. destruct (Ascii.eqb_spec c "&") as [->|]; [discriminate D1|]. reflexivity. }
  unfold copyText. destruct (_ <=? _)%Z; [exact H|]. destruct (String.eqb _ _); [reflexivity|]. rewrite !every_app, H, G. reflexivity.
Qed.

Section Exact.
Variable tr tr' : Trig RNum.
Variable bm : BMath RNum.
Variable bf : nat.
Variable dop : Z.
Variables kfuel sfuel lfuel : nat.
Notation co := (BezierOps tr bm bf).
Notation part := (PlanSet.rpart RNum (info RNum)).

(** what comes out as copy [i] of the part [d] *)
Definition copyOf (e : partDef RNum * nat) (q : part) : Prop :=
  let '(d, i) := e in exists p w h, pd_render d (Z.of_nat i) = Ok p /\ measured p (i_path (infoP q)) w h /\ i_id (infoP q) = pd_id d /\ i_label (infoP q) = copyText d i /\ posReq q /\ plain co q.
Lemma simple_finished d : simplePart d -> exists qs, RenderParts co tr' dop kfuel sfuel lfuel d = Ok qs /\ Forall2 copyOf (copiesOf d) qs.
Proof.
  intros (ET & HI & HR). unfold RenderParts. rewrite ET. cbn [each].
  destruct (each_exists (renderCopy co d) (fun i q => copyOf (d, Z.to_nat i) q) (upto (pd_repeat d))) as (qs & E & F).
  - intros i Hi. unfold upto in Hi. apply in_map_iff in Hi. destruct Hi as (k & <- & Hk). apply in_seq in Hk. destruct (HR (Z.of_nat k)) as ((p & EP & DP) & PL & (f & Hf)); [lia|].
    pose proof (drawable_drawn p DP) as Hd. pose proof DP as (W & _). destruct (trim_measured tr bm bf p W Hd) as (q & w & h & EQ & M & TQ). pose proof M as (tl & br & B & D' & B' & EW & EH).
    assert (DQ : drawn q <> []) by (rewrite D'; destruct (drawn p); [congruence|discriminate]).
    destruct (BoundingBoxTrimWhitespace_tight _ (BezierOps_boxOk tr bm bf) q TQ DQ) as (tl' & br' & E' & T'). destruct (tightBox_unique _ _ _ _ _ B' T') as [<- <-].
    eexists. split.
    + unfold renderCopy, renderOne. rewrite EP. cbn [bind]. rewrite EQ. cbn [bind]. rewrite E'. cbn [bind px py pnt]. fin. rewrite !Rminus_0_r, copyText_model. reflexivity.
    + rewrite Nat2Z.id. exists p, w, h. unfold infoP. cbn [fst i_path i_id i_label i_at]. split; [exact EP|]. split; [exact M|]. split; [reflexivity|]. split; [reflexivity|]. split.
      * destruct (drawable_box p tl br DP B). exists w, h. split; [eexists; reflexivity|lra].
      * unfold plain, infoP. cbn [fst i_id i_label i_at i_path]. split; [exact HI|]. split; [apply copyText_plain; exact PL|]. right.
        destruct (C69_box tr bm bf q TQ DQ) as (tl1 & br1 & _ & HB & _). destruct (HB _ _ Hf) as (x & y & _ & EA & _). exists (pnt x y). unfold PointPathAttributeText. rewrite EA. reflexivity.
  - exists qs. rewrite E. cbn [bind transformAll map]. split; [reflexivity|]. unfold copiesOf. unfold upto in F. revert qs F E. generalize (seq 0 (Z.to_nat (pd_repeat d))) as l. intros l qs F _. revert qs F.
    induction l as [|i l IH]; intros qs F; inversion F as [|? q ? r H F']; subst; cbn [map]; constructor; [rewrite Nat2Z.id in H; exact H|]. apply IH. exact F'.
Qed.

(** Each part is on the sheets once for each number below its repeat, drawn as its components draw it then and put at the corner of its place, and with its label: that of the part, if it is
    repeated with the number of the copy.  Nothing else is on the sheets, and no other file is touched.  Parts without part transformers; for the others see C92_sheets. *)
Theorem C92_copies d b before : number (ds_width d) (fun _ => True) -> number (ds_height d) (fun _ => True) -> number (ds_padding d) (fun p => (0 <= p)%R) -> Forall simplePart (ds_parts d) ->
  exists after xs qs, RenderDesign co tr' dop kfuel sfuel lfuel d b before = Ok after /\ holds after b xs /\ onlyThese before after b (List.length xs) /\
    Forall2 (fun e q => exists p w h, pd_render (fst e) (Z.of_nat (snd e)) = Ok p /\ measured p q w h) (flat_map copiesOf (ds_parts d)) qs /\
    Permutation (flat_map outlines xs) (map (fun eq => (pd_id (fst (fst eq)), SvgString (snd eq) 3)) (combine (flat_map copiesOf (ds_parts d)) qs)) /\
    Permutation (flat_map words xs) (filter (fun s => negb (allBlank s)) (map (fun e => copyText (fst e) (snd e)) (flat_map copiesOf (ds_parts d)))).
Proof.
  intros HW HH HP HS.
  assert (G : exists qss, Forall2 (fun d qs => RenderParts co tr' dop kfuel sfuel lfuel d = Ok qs) (ds_parts d) qss /\ Forall2 copyOf (flat_map copiesOf (ds_parts d)) (List.concat qss)).
  { induction HS as [|x l Hx _ (qss & F & C)]; [exists []; split; constructor|]. destruct (simple_finished x Hx) as (qs & E & Q). exists (qs :: qss). split; [constructor; assumption|]. cbn [flat_map List.concat]. apply Forall2_app; assumption. }
  destruct G as (qss & F & C). remember (List.concat qss) as ps eqn:Eps.
  assert (FW : BinPackProofs.fin RNum_pack (docWidth d)). { unfold docWidth, given. destruct (ds_width d) as [x|]; [destruct HW as (r & -> & _); exists r; reflexivity|exists 20%R; reflexivity]. }
  assert (FH : BinPackProofs.fin RNum_pack (docHeight d)). { unfold docHeight, given. destruct (ds_height d) as [x|]; [destruct HH as (r & -> & _); exists r; reflexivity|exists 12%R; reflexivity]. }
  assert (FP : exists p, docPadding d = (Fin p : T RNum) /\ (0 <= p)%R).
  { unfold docPadding, given. destruct (ds_padding d) as [x|]; [destruct HP as (r & -> & H); eauto|]. exists (1 / 10)%R. split; [|lra]. change (@ofZ RNum 1) with (Fin 1 : T RNum). change (@ofZ RNum 10) with (Fin 10 : T RNum). rewrite fdiv by lra. reflexivity. }
  destruct FP as (p & EP & P0).
  assert (OK : Forall (okPart RNum_pack (docPadding d)) ps). { rewrite EP. clear -C P0. induction C as [|[x i] q l ps (u & w & h & _ & _ & _ & _ & H & _) _ IH]; constructor; [apply posReq_okPart; [exact P0|exact H]|exact IH]. }
  assert (PL : Forall (plain co) ps). { clear -C. induction C as [|[x i] q l ps (u & w & h & _ & _ & _ & _ & _ & H) _ IH]; constructor; assumption. }
  destruct (C92_sheets co tr' dop kfuel sfuel lfuel RNum_pack d qss b before F FW FH) as (after & xs & E & HO & OT & P1 & P2); [rewrite <- Eps; exact OK|rewrite <- Eps; exact PL|]. rewrite <- Eps in P1, P2.
  exists after, xs, (map (fun q => i_path (infoP q)) ps). split; [exact E|]. split; [exact HO|]. split; [exact OT|]. split; [|split].
  - clear -C. induction C as [|[x i] q l ps (u & w & h & A & M & _) _ IH]; cbn [map]; constructor; [exists u, w, h; auto|exact IH].
  - rewrite P1. apply Permutation_refl'. clear -C. induction C as [|[x i] q l ps (u & w & h & _ & _ & HI & _) _ IH]; [reflexivity|]. cbn [map combine fst snd]. rewrite <- IH. unfold outlineOf at 1. rewrite HI. reflexivity.
  - rewrite P2. apply Permutation_refl'. clear -C. induction C as [|[x i] q l ps (u & w & h & _ & _ & _ & HL & _) _ IH]; [reflexivity|]. cbn [flat_map map filter fst snd]. rewrite <- IH. unfold labelOf at 1. rewrite HL. destruct (allBlank (copyText x i)); reflexivity.
Qed.
End Exact.
Print Assumptions C92_copies.

(** ** findings and examples, in float64 *)
Definition box (w h : Z) : path FNum := [mv 0 0 0 0; ln 0 0 w 0; ln w 0 w h; ln w h 0 h; ln 0 h 0 0].
Definition edge (a b : Pt FNum) : res (path FNum) := Ok [Move (pt 0 0) a; Line a b].
Definition cutAtHeight (y : Z) : splitSpec (N := FNum) := mkSplit (N := FNum) false (Some (fz y)) (fz 0) (fz 0) (fz 0) None None edge edge 3.
Definition noLathe : latheSpec FNum := mkLathe (fz 0) (fz 0) (fz 0) 3 (fun a b _ => edge a b).
Definition sawn (y : Z -> Z) : ptSpec FNum := mkPT "splitter" (fun i => cutAtHeight (y i)) (fun _ => noLathe).
Definition turned : ptSpec FNum := mkPT "lathe" (fun _ => cutAtHeight 0) (fun _ => mkLathe (fz 2) (fz 1) (fz 0) 3 (fun a b _ => Ok (box 5 5))).
Definition boards (repeat : Z) (ts : list (ptSpec FNum)) : partDef FNum := mkPartDef "board" repeat (fun i => Ok (box (4 + i) 6)) (fun _ => "board") (fun _ => "$BOTTOM_MIDDLE") ts.
Definition made (d : partDef FNum) := RenderParts noCurves noTrig 3 9 9 9 d.
Definition seenParts (r : res (list (PlanSet.rpart FNum (info FNum)))) : list (string * string * T FNum * T FNum) :=
  match r with Ok qs => map (fun q => (i_id (infoP q), i_label (infoP q), snd (fst q), snd q)) qs | _ => [] end.

(** Finding: the part transformers are asked after the last copy is drawn.  The splitter is told to cut copy 0 at the height 1 and copy 1 at the height 4; both are cut at 4. *)
Theorem C92_index_refuted :
  seenParts (made (boards 2 [sawn (fun i => if (i =? 0)%Z then 1 else 4)%Z])) = [("board", "", fz 4, fz 4); ("board", "", fz 4, fz 2); ("board", "", fz 5, fz 4); ("board", "", fz 5, fz 2)].
Proof. vm_compute. reflexivity. Qed.
(** a splitter that finds nothing to cut leaves the label; one that cuts takes it away *)
Example C92_split_ex : seenParts (made (boards 1 [sawn (fun _ => 0%Z)])) = [("board", "board", fz 4, fz 6)] /\ seenParts (made (boards 1 [sawn (fun _ => 2%Z)])) = [("board", "", fz 4, fz 2); ("board", "", fz 4, fz 4)].
Proof. split; vm_compute; reflexivity. Qed.
(** three copies; two copies cut into layers by a lathe *)
Example C92_labels_ex : seenParts (made (boards 3 [])) = [("board", "board:0", fz 4, fz 6); ("board", "board:1", fz 5, fz 6); ("board", "board:2", fz 6, fz 6)] /\
  seenParts (made (boards 2 [turned])) = [("board", "board:0:0", fz 5, fz 5); ("board", "board:0:1", fz 5, fz 5); ("board", "board:0:2", fz 5, fz 5); ("board", "board:1:0", fz 5, fz 5); ("board", "board:1:1", fz 5, fz 5); ("board", "board:1:2", fz 5, fz 5)].
Proof. split; vm_compute; reflexivity. Qed.
Example C92_unknown_ex : match made (boards 0 [mkPT "spliter" (fun _ => cutAtHeight 2) (fun _ => noLathe)]) with Err => true | _ => false end = true.
Proof. vm_compute. reflexivity. Qed.
(** a design with nothing but parts, 20 by 12 inches: the three boards and a lid are on the first sheet, a large one on the second *)
Definition lid : partDef FNum := mkPartDef "lid" 1 (fun _ => Ok (box 3 3)) (fun _ => "") (fun _ => "") [].
Definition large : partDef FNum := mkPartDef "large" 1 (fun _ => Ok (box 19 10)) (fun _ => "large") (fun _ => "$TOP_LEFT") [].
Definition designOf (ps : list (partDef FNum)) : design FNum := mkDesign None None None None ps.
Definition run (d : design FNum) : res disk := RenderDesign noCurves noTrig 3 9 9 9 d "out/box" nothing.
Definition rootAttr (k : string) (r : res disk) (n : string) : option string :=
  match r with Ok d => match d n with Some t => match readXml t with Some (Elem _ a _) => Some (attrIn k a) | _ => None end | None => None end | _ => None end.
Example C92_design_ex : let r := run (designOf [boards 3 []; lid; large]) in
  seen r "out/box_000.svg" = Some ([("board", "M 0.000 0.000 L 4.000 0.000 L 4.000 6.000 L 0.000 6.000 L 0.000 0.000"); ("board", "M 0.000 0.000 L 5.000 0.000 L 5.000 6.000 L 0.000 6.000 L 0.000 0.000");
    ("board", "M 0.000 0.000 L 6.000 0.000 L 6.000 6.000 L 0.000 6.000 L 0.000 0.000"); ("lid", "M 0.000 0.000 L 3.000 0.000 L 3.000 3.000 L 0.000 3.000 L 0.000 0.000")], ["board:0"; "board:1"; "board:2"]) /\
  seen r "out/box_001.svg" = Some ([("large", "M 0.000 0.000 L 19.000 0.000 L 19.000 10.000 L 0.000 10.000 L 0.000 0.000")], ["large"]) /\
  rootAttr "width" r "out/box_000.svg" = Some "20.000in" /\ rootAttr "height" r "out/box_001.svg" = Some "12.000in" /\
  Forall (fun d => Forall (fun s => okPart FNum_pack (docPadding (designOf [])) (tt, snd (fst s), snd s)) (seenParts (made d))) [boards 3 []; lid; large].
Proof.
  intros r. split; [vm_compute; reflexivity|]. split; [vm_compute; reflexivity|]. split; [vm_compute; reflexivity|]. split; [vm_compute; reflexivity|].
  assert (E2 : seenParts (made lid) = [("lid", "", fz 3, fz 3)]) by (vm_compute; reflexivity). assert (E3 : seenParts (made large) = [("large", "large", fz 19, fz 10)]) by (vm_compute; reflexivity).
  clear r. apply Forall_cons; [rewrite (proj1 C92_labels_ex)|apply Forall_cons; [rewrite E2|apply Forall_cons; [rewrite E3|apply Forall_nil]]]; repeat (apply Forall_cons || apply Forall_nil); repeat split; vm_compute; reflexivity.
Qed.
Example C92_failure_ex : match run (designOf [lid; mkPartDef "bad" 1 (fun _ => Err) (fun _ => "") (fun _ => "") []; large]) with Err => true | _ => false end = true.
Proof. vm_compute. reflexivity. Qed.
(** exact arithmetic: a part drawn as a rectangle that grows with part_index *)
Definition sheetOf (w h : R) : path RNum := [Move (pnt 0 0) (pnt 0 0); Line (pnt 0 0) (pnt w 0); Line (pnt w 0) (pnt w h); Line (pnt w h) (pnt 0 h); Line (pnt 0 h) (pnt 0 0)].
Definition growing : partDef RNum := mkPartDef "board" 5 (fun i => Ok (sheetOf (1 + IZR i) 2)) (fun _ => "board") (fun _ => "$BOTTOM_MIDDLE") [].
Example C92_simple_ex : simplePart growing.
Proof.
  split; [reflexivity|]. split; [reflexivity|]. intros i Hi. cbn [pd_repeat growing pd_render pd_label pd_at] in *. split; [|split; [reflexivity|exists (1 / 2, 1)%R; unfold boxNames; cbn [In]; auto 12]].
  assert (B : (0 <= IZR i < 5)%R) by (split; [apply (IZR_le 0); lia|apply (IZR_lt i 5); lia]). eexists. split; [reflexivity|].
  assert (LN : forall x1 y1 x2 y2, In (Line (pnt x1 y1) (pnt x2 y2)) (sheetOf (1 + IZR i) 2) -> inDrawing (sheetOf (1 + IZR i) 2) x1 y1).
  { intros x1 y1 x2 y2 I. exists (Line (pnt x1 y1) (pnt x2 y2)). split; [exact I|]. split; [exact Logic.I|]. exists 0%R. rewrite !pnt_X, !pnt_Y. lra. }
  split; [|split].
  - unfold sheetOf. repeat (apply Forall_cons || apply Forall_nil); cbn; unfold ptWithin; rewrite ?pnt_X, ?pnt_Y; repeat split; unfold Rabs; destruct (Rcase_abs _); lra.
  - exists 0%R, 0%R, (1 + IZR i)%R, 0%R. split; [eapply LN; unfold sheetOf; cbn [In]; eauto|]. split; [eapply LN; unfold sheetOf; cbn [In]; eauto 6|lra].
  - exists 0%R, 0%R, (1 + IZR i)%R, 2%R. split; [eapply LN; unfold sheetOf; cbn [In]; eauto|]. split; [eapply LN; unfold sheetOf; cbn [In]; eauto 8|lra].
Qed.
