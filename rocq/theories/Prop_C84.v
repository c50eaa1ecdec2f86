(** C84: what is written for a design are its parts, each once. *)
From Coq Require Import String Ascii List ZArith NArith Bool Lia Permutation Reals Lra.
From Verif Require Import Num RealNum FloatNum PathModel SegOps GeomTransforms AttrText UnitsModel BinPack BinPackProofs BinPackGeom BinPackPad PlanSet PlanSetProofs TextProofs SvgWrite XmlSpec Output Deliver Prop_C25 Prop_C77 Prop_C78 Witness.
Import ListNotations.
Local Open Scope string_scope.

(** What a reader sees in a document: the outlines (id and path data of the path elements) and the words (contents of texts), at any depth *)
Fixpoint attrIn (k : string) (a : list (string * string)) : string := match a with [] => "" | (n, v) :: r => if String.eqb n k then v else attrIn k r end.
Fixpoint outlines (x : node) : list (string * string) :=
  match x with
  | Text _ => []
  | Elem n a ks => ((if String.eqb n "path" then [(attrIn "id" a, attrIn "d" a)] else []) ++ flat_map outlines ks)%list
  end.
Fixpoint words (x : node) : list string := match x with Text s => [s] | Elem _ _ ks => flat_map words ks end.

Section Claims.
Context {N : Num}.
Variable co : CurveOps N.
Notation part := (rpart N (info N)).
Definition infoP (q : part) : info N := fst (fst q).

(** what is expected: one outline for each part, the labels that are not blank *)
Definition outlineOf (q : part) : string * string := (i_id (infoP q), SvgString (i_path (infoP q)) 3).
Definition labelOf (q : part) : list string := if allBlank (i_label (infoP q)) then [] else [i_label (infoP q)].
(** ids and labels are plain text, the labels have places *)
Definition plain (q : part) : Prop := every okVal (i_id (infoP q)) = true /\ every okText (i_label (infoP q)) = true /\
  (i_label (infoP q) = "" \/ exists p, PointPathAttributeText co (i_at (infoP q)) (i_path (infoP q)) = Ok p).
(** the files [b]_000.svg, [b]_001.svg ... hold documents with the trees [xs], one each *)
Definition holds (after : disk) (b : string) (xs : list node) : Prop :=
  forall i x, nth_error xs i = Some x -> exists t text, number t (N.of_nat i) /\ after (b ++ "_" ++ t ++ ".svg") = Some text /\ readXml text = Some x.
(** no other file is touched *)
Definition onlyThese (before after : disk) (b : string) (n : nat) : Prop :=
  forall m, after m <> before m -> exists i t, (i < n)%nat /\ number t (N.of_nat i) /\ m = b ++ "_" ++ t ++ ".svg".

Lemma partNode_sees d r x : d_precision d = 3%nat -> partNode co d r x -> outlines x = [outlineOf (r_part r)] /\ words x = labelOf (r_part r).
Proof.
  intros Hp (ls & -> & H). unfold infoOf in *. fold (infoP (r_part r)) in *. unfold outlineOf, labelOf. rewrite Hp. cbn. destruct H as [[-> ->]|[_ (q & _ & ->)]]; [split; reflexivity|].
  unfold labelNodes. cbn. destruct (allBlank (i_label (infoP (r_part r)))); split; reflexivity.
Qed.
Lemma sheet_sees w h u rs : u = Inches \/ u = MilliMeters -> Forall plain (map r_part rs) ->
  exists x, readXml (WriteSVG co (NewSVGDocument w h u rs)) = Some x /\ outlines x = map outlineOf (map r_part rs) /\ words x = flat_map labelOf (map r_part rs).
Proof.
  intros Hu HP. rewrite Forall_map in HP. destruct (C77_sheet co w h u rs Hu) as (xs & R & F).
  - eapply Forall_impl; [|exact HP]. intros r (A & B & _). split; assumption.
  - eapply Forall_impl; [|exact HP]. intros r (_ & _ & C). exact C.
  - eexists. split; [exact R|]. clear R HP. cbn [outlines words]. cbn [String.eqb Ascii.eqb Bool.eqb app].
    remember (NewSVGDocument w h u rs) as d eqn:Ed. assert (Hd : d_precision d = 3%nat) by (rewrite Ed; reflexivity). clear Ed.
    induction F as [|r x rs' xs' H F [IH1 IH2]]; [split; reflexivity|]. destruct (partNode_sees d r x Hd H) as [E1 E2]. cbn [flat_map map]. rewrite E1, E2, IH1, IH2. split; reflexivity.
Qed.

Lemma saveFrom_touched b sheets : forall d i m, saveFrom d b i sheets m <> d m -> exists k, (k < List.length sheets)%nat /\ m = fileName b (i + N.of_nat k).
Proof.
  induction sheets as [|s r IH]; intros d i m H; [destruct (H eq_refl)|]. cbn [saveFrom List.length] in *.
  destruct (String.eqb_spec m (fileName b i)) as [E|E]; [exists 0%nat; split; [lia|]; rewrite N.add_0_r; exact E|].
  destruct (IH (write d (fileName b i) s) (N.succ i) m) as (k & Hk & ->).
  - intros G. apply H. rewrite G. unfold write. apply String.eqb_neq in E. rewrite E. reflexivity.
  - exists (S k). split; [lia|]. f_equal. lia.
Qed.

Context (L : PackLaws N).
(** Parts of positive size on any material: what is written are documents that together have the outlines of the parts and their labels, each as often as given; no other file is touched. *)
Theorem C84_written (w h p : T N) (u : Units) (parts : list part) (b : string) (before : disk) :
  u = Inches \/ u = MilliMeters -> fin L w -> fin L h -> Forall (okPart L p) parts -> Forall plain parts ->
  exists after xs, Deliver co w h p u parts b before = Ok after /\ holds after b xs /\ onlyThese before after b (List.length xs) /\
    Permutation (flat_map outlines xs) (map outlineOf parts) /\ Permutation (flat_map words xs) (flat_map labelOf parts).
Proof.
  intros Hu Fw Fh HP HC. destruct (@Init_spec N (info N) L w h p Fw Fh parts HP) as (ds & E & _ & PM).
  unfold Deliver, SheetTexts. rewrite E. cbn [bind].
  assert (HD : Forall (fun d => Forall plain (map r_part (s_renderables d))) ds).
  { apply Forall_forall. intros d Id. apply Forall_forall. intros q Iq. rewrite Forall_forall in HC. apply HC. eapply Permutation_in; [exact PM|]. apply in_concat. exists (sheetParts d). split; [apply in_map; exact Id|exact Iq]. }
  assert (G : exists xs, Forall2 (fun d x => readXml (WriteSVG co (NewSVGDocument w h u (s_renderables d))) = Some x) ds xs /\
    flat_map outlines xs = map outlineOf (allParts ds) /\ flat_map words xs = flat_map labelOf (allParts ds)).
  { clear E PM. induction HD as [|d ds Hd _ (xs & F & E1 & E2)]; [exists []; split; [constructor|split; reflexivity]|].
    destruct (sheet_sees w h u (s_renderables d) Hu Hd) as (x & R & O1 & O2). exists (x :: xs). split; [constructor; assumption|].
    unfold allParts in *. cbn [flat_map map concat]. rewrite map_app, flat_map_app, O1, O2, E1, E2. split; reflexivity. }
  destruct G as (xs & F & E1 & E2). eexists. exists xs. split; [reflexivity|]. split; [|split; [|split]].
  - intros i x Hx. exists (pad3 (N.of_nat i)).
    assert (G : exists d, nth_error ds i = Some d /\ readXml (WriteSVG co (NewSVGDocument w h u (s_renderables d))) = Some x).
    { clear -F Hx. revert i Hx. induction F as [|d y ds xs H F IH]; intros [|i] Hx; try discriminate Hx; cbn in *; [injection Hx as <-; exists d; auto|]. apply IH. exact Hx. }
    destruct G as (d & Hd & Rd). exists (WriteSVG co (NewSVGDocument w h u (s_renderables d))). split; [apply pad3_number|]. split; [|exact Rd].
    apply (saveFrom_nth b _ before 0). rewrite nth_error_map, Hd. reflexivity.
  - intros m Hm.
    assert (LL : List.length xs = List.length (map (fun d => WriteSVG co (NewSVGDocument w h u (s_renderables d))) ds)). { rewrite map_length. symmetry. clear -F. induction F; cbn; congruence. }
    destruct (saveFrom_touched b (map (fun d => WriteSVG co (NewSVGDocument w h u (s_renderables d))) ds) before 0%N m Hm) as (i & Hi & ->). exists i, (pad3 (N.of_nat i)). split; [lia|]. split; [apply pad3_number|reflexivity].
  - rewrite E1. apply Permutation_map. exact PM.
  - rewrite E2. apply Permutation_flat_map. exact PM.
Qed.
(** One part without area, a single cut for example, and nothing is written, of any part. *)
Theorem C84_flat_refuted (w h p : T N) (u : Units) (parts more : list part) (bad : part) (b : string) (before : disk) :
  fin L w -> fin L h -> Forall (okPart L p) parts -> badSize bad -> Deliver co w h p u (parts ++ bad :: more)%list b before = Err.
Proof.
  intros Fw Fh HP HB. destruct (@Init_spec N (info N) L w h p Fw Fh parts HP) as (ds & E & _). unfold Deliver, SheetTexts.
  rewrite (C25_bad_size_is_an_error N (info N) 3 w h p parts more ds bad E HB). reflexivity.
Qed.
End Claims.

(** Exact arithmetic: the sizes are any positive numbers. *)
Theorem C84_written_exact (co : CurveOps RNum) (w h p : R) (u : Units) parts b before :
  u = Inches \/ u = MilliMeters -> (0 <= p)%R -> Forall posReq parts -> Forall (plain co) parts ->
  exists after xs, Deliver co (Fin w : T RNum) (Fin h : T RNum) (Fin p : T RNum) u parts b before = Ok after /\ holds after b xs /\ onlyThese before after b (List.length xs) /\
    Permutation (flat_map outlines xs) (map outlineOf parts) /\ Permutation (flat_map words xs) (flat_map labelOf parts).
Proof.
  intros Hu Hp HP HC. apply (C84_written co RNum_pack); try assumption; [exists w; reflexivity|exists h; reflexivity|].
  eapply Forall_impl; [|exact HP]. intros q. apply posReq_okPart. exact Hp.
Qed.
Print Assumptions C84_written_exact.

(** *** examples: 20 x 12 sheets with padding 1; parts of 10 x 8, 9 x 6 and 15 x 9, the last does not fit on the first sheet *)
Definition exPart (id label at_ : string) (w h : Z) : rpart FNum (info FNum) := (mkInfo id [mv 0 0 0 0; ln 0 0 w h] label at_, fz w, fz h).
Definition exParts := [exPart "lid" "" "" 10 8; exPart "side" "left side" "$TOP_LEFT" 9 6; exPart "back" "" "" 15 9].
Definition nothing : disk := fun _ => None.
Definition seen (r : res disk) (n : string) : option (list (string * string) * list string) :=
  match r with Ok d => match d n with Some t => match readXml t with Some x => Some (outlines x, words x) | None => None end | None => None end | _ => None end.
Example C84_written_ex : let r := Deliver noCurves (fz 20) (fz 12) (fz 1) Inches exParts "out/box" nothing in
  Forall (okPart FNum_pack (fz 1)) exParts /\ Forall (plain noCurves) exParts /\
  seen r "out/box_000.svg" = Some ([("lid", "M 0.000 0.000 L 10.000 8.000"); ("side", "M 0.000 0.000 L 9.000 6.000")], ["left side"]) /\
  seen r "out/box_001.svg" = Some ([("back", "M 0.000 0.000 L 15.000 9.000")], []).
Proof.
  intros r. split; [|split; [|split; vm_compute; reflexivity]].
  - repeat (apply Forall_cons || apply Forall_nil); repeat split; vm_compute; reflexivity.
  - assert (H : match PointPathAttributeText noCurves "$TOP_LEFT" [mv 0 0 0 0; ln 0 0 9 6] with Ok _ => true | _ => false end = true) by (vm_compute; reflexivity).
    repeat (apply Forall_cons || apply Forall_nil); (split; [reflexivity|split; [reflexivity|]]); [left; reflexivity| |left; reflexivity]. right.
    unfold exPart, infoP. cbn [fst i_at i_path]. destruct (PointPathAttributeText noCurves "$TOP_LEFT" _) as [q| | |]; try discriminate H. exists q. reflexivity.
Qed.
Example C84_flat_ex : badSize (exPart "score" "" "" 10 0) /\ match Deliver noCurves (fz 20) (fz 12) (fz 1) Inches (exParts ++ [exPart "score" "" "" 10 0]) "out/box" nothing with Err => true | _ => false end = true.
Proof. split; [|vm_compute; reflexivity]. unfold badSize, exPart. vm_compute. tauto. Qed.
Example C84_exact_ex (co : CurveOps RNum) : Forall posReq [(@mkInfo RNum "lid" [] "" "", Fin 10 : T RNum, Fin 8 : T RNum)] /\ Forall (plain co) [(@mkInfo RNum "lid" [] "" "", Fin 10 : T RNum, Fin 8 : T RNum)].
Proof. split; (apply Forall_cons; [|constructor]); [exists 10%R, 8%R; split; [eexists; reflexivity|lra]|]. split; [reflexivity|]. split; [reflexivity|left; reflexivity]. Qed.
