(** C67: a part is what its children draw, measured exactly. *)
From Coq Require Import List ZArith Bool Reals Lra Lia.
From Verif Require Import Num FloatNum RealNum RealTrig PathModel DrawModel SegOps TransformsModel Bezier GeomTransforms PathSpec PathProofs GeomSpec BezierProofs GeomProofs AffineProofs HandleProofs Within Witness Components CompProofs Prop_C14 Prop_C64.
Import ListNotations.
Local Open Scope R_scope.

(** no two moves follow each other *)
Fixpoint singleMoves {N : Num} (p : path N) : Prop :=
  match p with
  | Move _ _ :: (Move _ _ :: _) => False
  | _ :: r => singleMoves r
  | [] => True
  end.
(** the child that starts at the cursor is rendered there, the next one where it ends, and so on *)
Inductive inTurn {N : Num} : Pt N -> list (Pt N -> res (path N)) -> list (path N) -> Prop :=
| turn_nil c : inTurn c [] []
| turn_cons c child p i g cs ps : child c = Ok p -> p = i ++ [g] -> inTurn (send g) cs ps -> inTurn c (child :: cs) (p :: ps).

Lemma renderChain_inTurn {N : Num} (cs : list (Pt N -> res (path N))) c ps : renderChain cs c = Ok ps <-> inTurn c cs ps.
Proof.
  split.
  - revert c ps. induction cs as [|child cs IH]; intros c ps E; cbn [renderChain] in E; [injection E as <-; constructor|].
    destruct (child c) as [p| | |] eqn:EC; cbn [bind] in E; try discriminate. unfold PathCursor in E. destruct (Tail p) as [g|] eqn:ET; cbn [bind] in E; try discriminate.
    destruct (renderChain cs (send g)) as [ps'| | |] eqn:ER; cbn [bind] in E; try discriminate. injection E as <-.
    destruct p as [|h r]; [discriminate|]. destruct (@exists_last _ (h :: r)) as (i & z & Ez); [discriminate|]. rewrite Ez, Tail_snoc in ET. injection ET as ->. econstructor; eauto.
  - induction 1 as [c|c child p i g cs ps EC EP _ IH]; [reflexivity|]. cbn [renderChain]. rewrite EC. cbn [bind]. unfold PathCursor. rewrite EP, Tail_snoc. cbn [bind]. rewrite IH. reflexivity.
Qed.

(** *** moves in a row *)
Section Collapse.
Context {N : Num}.
Lemma singleMoves_snoc (l : path N) g : singleMoves l -> (visible g \/ l = [] \/ exists i h, l = i ++ [h] /\ visible h) -> singleMoves (l ++ [g]).
Proof.
  induction l as [|h l IH]; intros S H; [destruct g; exact I|]. destruct l as [|h' l].
  - destruct h as [a b|a b|a b c d]; [|destruct g; exact I|destruct g; exact I]. destruct H as [H|[H|(i & k & E & H)]]; [destruct g; [destruct H|exact I|exact I]|discriminate|].
    destruct i as [|? [|]]; try discriminate. injection E as <-. destruct H.
  - assert (S' : singleMoves ((h' :: l) ++ [g])).
    { apply IH; [destruct h, h'; cbn in S; tauto|]. destruct H as [H|[H|(i & k & E & H)]]; [auto|discriminate|]. destruct i as [|? i]; [discriminate|]. injection E as _ E. right; right. exists i, k. auto. }
    destruct h, h'; cbn in S, S' |- *; tauto.
Qed.
Lemma singleMoves_prefix (l m : path N) : singleMoves (l ++ m) -> singleMoves l.
Proof.
  induction l as [|h l IH]; intros S; [exact I|]. assert (S' : singleMoves l) by (apply IH; destruct h as [| |]; cbn [app singleMoves] in S; [destruct (l ++ m) as [|[| |] ?] eqn:E; [exact I|tauto|exact S|exact S]|exact S|exact S]).
  destruct h as [a b|a b|a b c d]; [|exact S'|exact S']. destruct l as [|[| |] l]; try exact I; [destruct S|exact S'|exact S'].
Qed.
Lemma collapse_spec (l acc : path N) : singleMoves acc -> singleMoves (collapse_loop acc l) /\ drawn (collapse_loop acc l) = drawn acc ++ drawn l /\ (forall g, In g (collapse_loop acc l) -> In g acc \/ In g l).
Proof.
  revert acc. induction l as [|s l IH]; intros acc S; cbn [collapse_loop].
  - rewrite app_nil_r. auto.
  - destruct (IH ((if isMove s then TrimTailMove acc else acc) ++ [s])) as (A & B & C).
    + destruct s as [a b|a b|a b c d]; cbn [isMove]; [|apply singleMoves_snoc; [exact S|left; exact I]|apply singleMoves_snoc; [exact S|left; exact I]].
      destruct (TrimTailMove_suffix acc) as (m & E & _). apply singleMoves_snoc; [apply (singleMoves_prefix _ m); rewrite <- E; exact S|].
      destruct (TrimTailMove_ends acc) as [Z|(i & g & Z & V)]; [auto|]. right; right. eauto.
    + split; [exact A|]. split.
      * rewrite B, drawn_app. replace (drawn (if isMove s then TrimTailMove acc else acc)) with (drawn acc) by (destruct (isMove s); [symmetry; apply TrimTailMove_drawn|reflexivity]). rewrite <- app_assoc. destruct s; reflexivity.
      * intros g Hg. destruct (C g Hg) as [Hg'|Hg']; [|right; right; exact Hg']. apply in_app_or in Hg'. destruct Hg' as [Hg'|[<-|[]]]; [left|right; left; reflexivity].
        destruct (isMove s); [|exact Hg']. destruct (TrimTailMove_suffix acc) as (m & E & _). rewrite E. apply in_or_app. auto.
Qed.
Lemma FixHeadMove_single (l : path N) : singleMoves l -> singleMoves (FixHeadMove l).
Proof. destruct l as [|[a b|a b|a b c d] r]; auto. cbn [FixHeadMove]. destruct (_ || _); auto. Qed.
Lemma collapse_single (p : path N) : singleMoves (collapseMoves p).
Proof.
  unfold collapseMoves, NewPathFromSegments. destruct (collapse_spec p [] I) as (A & _ & _). destruct (collapse_loop [] p) as [|g r]; [exact I|].
  destruct g as [a b|a b|a b c d]; cbn [isMove]; apply FixHeadMove_single; exact A.
Qed.
Lemma collapse_drawn (p : path N) : drawn (collapseMoves p) = drawn p.
Proof. unfold collapseMoves. rewrite NPFS_drawn. apply (collapse_spec p [] I). Qed.
End Collapse.
Lemma FixHeadMove_tame p : Forall tame p -> Forall tame (FixHeadMove p).
Proof.
  intros H. destruct p as [|[a b|a b|a b c d] r]; auto. cbn [FixHeadMove]. destruct (_ || _); auto. inversion H as [|? ? HM Hr]; subst. constructor; [|exact Hr]. split; [split; [reflexivity|apply HM]|exact I].
Qed.
Lemma collapse_tame p : Forall tame p -> Forall tame (collapseMoves p).
Proof.
  intros H. destruct (collapse_spec p [] I) as (_ & _ & C). unfold collapseMoves, NewPathFromSegments. apply FixHeadMove_tame.
  assert (G : Forall tame (collapse_loop [] p)) by (apply Forall_forall; intros g Hg; destruct (C g Hg) as [[]|Hp]; rewrite Forall_forall in H; auto).
  destruct (collapse_loop [] p) as [|g r]; [exact G|]. destruct (isMove g); [exact G|]. constructor; [|exact G]. split; [|exact I]. split; [assert (E0 : @NewPoint RNum zero zero = pnt 0 0) by apply NewPoint_fin; rewrite E0; apply finitePt_pnt|]. apply tame_sstart. inversion G; auto.
Qed.

(** *** trimming and measuring *)
(** what is drawn by [q] is what is drawn by [p], put at the origin, and [w] and [h] are its width and its height *)
Definition measured (p q : path RNum) (w h : R) : Prop :=
  exists tl br, tightBox (inDrawing p) tl br /\ drawn q = map (displaced (- X tl) (- Y tl)) (drawn p) /\ tightBox (inDrawing q) (pnt 0 0) (pnt w h) /\ w = X br - X tl /\ h = Y br - Y tl.
Lemma same_drawn_box p q tl br : drawn p = drawn q -> tightBox (inDrawing p) tl br -> tightBox (inDrawing q) tl br.
Proof. intros E. apply tightBox_ext. intros x y. rewrite !inDrawing_drawn, E. reflexivity. Qed.
Lemma trim_measured tr bm fuel p : Forall (within (2 ^ 62)) p -> drawn p <> [] ->
  exists q w h, TrimWhitespace (BezierOps tr bm fuel) p = Ok q /\ measured p q w h /\ Forall tame q.
Proof.
  intros W Hd. assert (HT : Forall tame p) by (eapply Forall_impl; [|exact W]; intros; eapply within_tame; eauto; lra). pose proof (Forall_tame_finite p HT) as F.
  destruct (BoundingBoxTrimWhitespace_tight _ (BezierOps_boxOk tr bm fuel) p HT Hd) as (tl & br & E & TB).
  pose proof TB as (F1 & F2 & (_ & (y0 & (g1 & I1 & _ & O1)) & _) & (_ & (x0 & (g2 & I2 & _ & O2)) & _)).
  assert (B1 : Rabs (X tl) < 2 ^ 62) by (eapply Forall_forall in W; [|exact I1]; eapply onSeg_within in O1; eauto; tauto).
  assert (B2 : Rabs (Y tl) < 2 ^ 62) by (eapply Forall_forall in W; [|exact I2]; eapply onSeg_within in O2; eauto; tauto).
  exists (Shift (Fin (- X tl) : T RNum) (Fin (- Y tl)) p), (X br - X tl), (Y br - Y tl). split; [|split].
  - unfold TrimWhitespace. rewrite E. cbn [bind]. rewrite (px_fin _ F1), (py_fin _ F1). reflexivity.
  - exists tl, br. split; [exact TB|]. split; [rewrite Shift_drawn by exact F; apply map_ext; apply displaced_aff|]. split; [|split; reflexivity].
    pose proof (tightBox_shift (- X tl) (- Y tl) p tl br F TB) as G. replace (X tl + - X tl) with 0 in G by ring. replace (Y tl + - Y tl) with 0 in G by ring. exact G.
  - assert (W' : Forall (within (2 ^ 63)) (Shift (Fin (- X tl) : T RNum) (Fin (- Y tl)) p)).
    { rewrite Shift_canon by auto. apply within_canon; [lra|]. apply Forall_forall. intros g Hg. apply in_map_iff in Hg. destruct Hg as (h & <- & Hh). replace (2 ^ 63) with (2 * 2 ^ 62) by ring.
      eapply Forall_forall in W; [|exact Hh]. apply within_shift; auto; rewrite Rabs_Ropp; auto. }
    eapply Forall_impl; [|exact W']. intros. eapply within_tame; eauto; lra.
Qed.
(** Rendering a part: the children are rendered one after the other, joined and transformed; the result is put at the origin, starts there,
    and no two moves follow each other. *)
Theorem C67_render tr bm fuel ts cs cursor ps p : inTurn cursor cs ps -> ps <> [] -> Forall (Forall tame) ps ->
  (forall j, JoinPaths ps = Ok j -> drawn j = concat (map drawn ps) -> applyTransforms ts j = Ok p) -> Forall (within (2 ^ 62)) p -> drawn p <> [] ->
  exists q w h, PartRender (BezierOps tr bm fuel) ts cs cursor = Ok q /\ measured p q w h /\ starts_with_origin_move q /\ singleMoves q.
Proof.
  intros HC HN HT HA HW HD. destruct ps as [|p0 ps]; [congruence|].
  assert (HE : Forall (fun q => q <> []) (p0 :: ps)).
  { clear - HC. remember (p0 :: ps) as l eqn:E. clear E. induction HC as [|c child p i g cs l _ E _ IH]; constructor; [|exact IH]. rewrite E. destruct i; discriminate. }
  destruct (JoinPaths_spec p0 ps HE HT) as (j & EJ & DJ & TJ & (u & Eu) & _). pose proof (HA j EJ DJ) as EA.
  destruct (trim_measured tr bm fuel p HW HD) as (q & w & h & EQ & M & TQ). exists (collapseMoves q), w, h. split; [|split; [|split; [|apply collapse_single]]].
  - unfold PartRender. apply renderChain_inTurn in HC. rewrite HC. cbn [bind]. rewrite EJ. cbn [bind].
    assert (NJ : j <> []) by (rewrite Eu; inversion HE as [|? ? N0 _]; subst; destruct p0; [congruence|discriminate]).
    destruct (snoc_of j NJ) as (i & z & Ez). unfold PathCursor at 1. rewrite Ez at 1. rewrite Tail_snoc. cbn [bind]. unfold HandleTransforms. rewrite EA. cbn [bind].
    assert (NP : p <> []) by (intros ->; apply HD; reflexivity). destruct (snoc_of p NP) as (i' & z' & Ez'). unfold PathCursor. rewrite Ez' at 1. rewrite Tail_snoc. cbn [bind]. rewrite EQ. reflexivity.
  - destruct M as (tl & br & B & D & B' & EW & EH). exists tl, br. split; [exact B|]. split; [rewrite collapse_drawn; exact D|]. split; [|auto]. apply (same_drawn_box q); [symmetry; apply collapse_drawn|exact B'].
  - assert (NC : collapse_loop [] q <> []).
    { intros Z. destruct (collapse_spec q [] I) as (_ & D & _). rewrite Z in D. cbn in D. destruct M as (tl & br & _ & D' & _). rewrite D' in D. destruct (drawn p); [congruence|discriminate]. }
    unfold collapseMoves. apply NPFS_origin. exact NC.
Qed.
Print Assumptions C67_render.

(** Repeated parts: one for each number below [repeat], in order, each put at the origin and with its own width and height. *)
Theorem C67_repeat tr bm fuel (repeat : Z) render :
  (forall i, (0 <= i < repeat)%Z -> exists p, render i = Ok p /\ Forall (within (2 ^ 62)) p /\ drawn p <> []) ->
  exists parts, RenderPart (BezierOps tr bm fuel) repeat render = Ok parts /\
    Forall2 (fun i part => exists p q w h, render i = Ok p /\ part = (q, Fin w : T RNum, Fin h : T RNum) /\ measured p q w h) (map Z.of_nat (seq 0 (Z.to_nat repeat))) parts.
Proof.
  intros H. apply each_exists. intros i Hi. unfold upto in Hi. apply in_map_iff in Hi. destruct Hi as (k & <- & Hk). apply in_seq in Hk.
  destruct (H (Z.of_nat k)) as (p & EP & W & D); [lia|]. destruct (trim_measured tr bm fuel p W D) as (q & w & h & EQ & M & TQ).
  destruct M as (tl & br & B & D' & B' & EW & EH).
  destruct (BoundingBoxTrimWhitespace_tight _ (BezierOps_boxOk tr bm fuel) q TQ) as (tl' & br' & E' & T'); [rewrite D'; destruct (drawn p); [congruence|discriminate]|].
  destruct (tightBox_unique _ _ _ _ _ B' T') as [<- <-].
  exists (q, Fin w, Fin h). split.
  - unfold renderOne. rewrite EP. cbn [bind]. rewrite EQ. cbn [bind]. rewrite E'. cbn [bind px py pnt]. fin. rewrite !Rminus_0_r. reflexivity.
  - exists p, q, w, h. split; [exact EP|]. split; [reflexivity|]. exists tl, br. auto.
Qed.
Print Assumptions C67_repeat.

(** Finding: of several moves in a row only the last is kept, unchanged; it does not start where the line before it ended.  The child draws a
    connected path, the part does not. *)
Theorem C67_gap_refuted : PartRender noCurves [] [fun _ => Ok [mv 0 0 0 0; ln 0 0 1 0; mv 1 0 2 0; mv 2 0 3 0; ln 3 0 4 0]] (pt 0 0) = Ok [mv 0 0 0 0; ln 0 0 1 0; mv 2 0 3 0; ln 3 0 4 0].
Proof. byr. Qed.
(** a part without children is reported, one whose children draw nothing is not *)
Theorem C67_empty {N : Num} co ts cursor : @PartRender N co ts [] cursor = Err.
Proof. reflexivity. Qed.

(** *** example: two children, the second drawing on from the first, at a distance from the origin *)
Definition down (n : Z) : Pt FNum -> res (path FNum) := fun c => Ok [Move (pt 0 0) c; Line c (mkPt (px c) (add (py c) (fz n)))].
Definition right (n : Z) : Pt FNum -> res (path FNum) := fun c => Ok [Move (pt 0 0) c; Line c (mkPt (add (px c) (fz n)) (py c))].
Example C67_example : PartRender noCurves [] [right 4; down 3] (pt 2 5) = Ok [mv 0 0 0 0; ln 0 0 4 0; mv (-2) (-5) 4 0; ln 4 0 4 3].
Proof. byr. Qed.
Definition strokeR (x y : R) (c : Pt RNum) : res (path RNum) := Ok [Move (pnt 0 0) c; Line c (pnt (X c + x) (Y c + y))].
Example C67_hypotheses tr bm fuel : exists q, PartRender (BezierOps tr bm fuel) [] [strokeR 4 0; strokeR 0 3] (pnt 2 5) = Ok q /\ drawn q = [Line (pnt 0 0) (pnt 4 0); Line (pnt 4 0) (pnt 4 3)].
Proof.
  set (p1 := [Move (pnt 0 0) (pnt 2 5); Line (pnt 2 5) (pnt (2 + 4) (5 + 0))]). set (p2 := [Move (pnt 0 0) (pnt (2 + 4) (5 + 0)); Line (pnt (2 + 4) (5 + 0)) (pnt (2 + 4 + 0) (5 + 0 + 3))]).
  assert (T : Forall (Forall tame) [p1; p2]) by (unfold p1, p2; repeat constructor).
  assert (HJ : exists j, JoinPaths [p1; p2] = Ok j /\ Forall (inside 100) j /\ drawn j = drawn p1 ++ drawn p2).
  { destruct (JoinPaths_spec p1 [p2]) as (j & EJ & DJ & _); [repeat constructor; discriminate|exact T|]. exists j. split; [exact EJ|]. split; [|rewrite DJ; reflexivity]. eapply JoinPaths_inside; [|exact EJ].
    repeat apply Forall_cons; try apply Forall_nil; cbn; unfold near; rewrite ?pnt_X, ?pnt_Y; repeat split; unfold Rabs; destruct (Rcase_abs _); lra. }
  destruct HJ as (j & EJ & IJ & DJ).
  destruct (C67_render tr bm fuel [] [strokeR 4 0; strokeR 0 3] (pnt 2 5) [p1; p2] j) as (q & w & h & E & (tl & br & B & D & _) & _).
  - eapply turn_cons; [reflexivity|exact (eq_refl (([Move (pnt 0 0) (pnt 2 5)] ++ [Line (pnt 2 5) (pnt (2 + 4) (5 + 0))])))|]. eapply turn_cons; [reflexivity| |constructor]. exact (eq_refl ([Move (pnt 0 0) (pnt (2 + 4) (5 + 0))] ++ [_])).
  - discriminate.
  - exact T.
  - intros j' EJ' _. rewrite EJ in EJ'. injection EJ' as <-. reflexivity.
  - eapply Forall_impl; [|exact IJ]. intros g Hg. unfold inside, near in Hg. unfold within, ptWithin. destruct g; intuition (auto; lra).
  - rewrite DJ. discriminate.
  - exists q. split; [exact E|]. rewrite D, DJ. cbn [p1 p2 drawn app map displaced].
    assert (TL : X tl = 2 /\ Y tl = 5).
    { destruct B as (_ & _ & (BX & (y1 & (g1 & I1 & V1 & O1)) & _) & (BY & (x1 & (g2 & I2 & V2 & O2)) & _)).
      assert (G : forall x y, inDrawing j x y <-> inDrawing (p1 ++ p2) x y) by (intros; rewrite !inDrawing_drawn, DJ, drawn_app; reflexivity).
      assert (O : inDrawing j 2 5) by (apply G; exists (Line (pnt 2 5) (pnt (2 + 4) (5 + 0))); split; [right; left; reflexivity|]; split; [exact I|]; exists 0; rewrite !pnt_X, !pnt_Y; lra).
      assert (LX : X tl <= 2) by (apply BX; exists 5; exact O). assert (LY : Y tl <= 5) by (apply BY; exists 2; exact O).
      assert (L : forall x y, inDrawing j x y -> 2 <= x /\ 5 <= y).
      { intros x y H. apply G in H. destruct H as (g & Hg & V & (t & Ht & H)). cbn [In app p1 p2] in Hg. repeat destruct Hg as [<-|Hg]; try contradiction; rewrite !pnt_X, !pnt_Y in H; lra. }
      assert (2 <= X tl) by (apply (L _ y1); exists g1; auto). assert (5 <= Y tl) by (apply (L x1); exists g2; auto). lra. }
    destruct TL as [-> ->]. rewrite !pnt_X, !pnt_Y. unfold pnt. repeat (f_equal; try lra).
Qed.
