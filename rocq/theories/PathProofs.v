(** Lemmas about the path and draw models that hold for every [Num]. *)
From Coq Require Import String List ZArith Bool Lia.
From Verif Require Import Num PathModel DrawModel PathSpec.
Import ListNotations.

Section Proofs.
Context {N : Num}.
Notation seg := (seg N).
Notation P := (Pt N).
Implicit Types (g h : seg) (l p d : list seg) (c : P).

Lemma same_place_refl c : same_place c c.
Proof. left; reflexivity. Qed.

Lemma ptEquals_same_place (a b : P) : ptEquals a b = true -> same_place a b.
Proof. unfold ptEquals; intros H. apply andb_prop in H. right; tauto. Qed.

Lemma sstart_setStart g c : sstart (setStart g c) = c.
Proof. destruct g; reflexivity. Qed.
Lemma send_setStart g c : send (setStart g c) = send g.
Proof. destruct g; reflexivity. Qed.
Lemma isMove_setStart g c : isMove (setStart g c) = isMove g.
Proof. destruct g; reflexivity. Qed.
Lemma setStart_same g : setStart g (sstart g) = g.
Proof. destruct g; reflexivity. Qed.
Lemma setStart_sbs g c : same_but_start (setStart g c) g.
Proof. destruct g; cbn; auto. Qed.
Lemma sbs_refl g : same_but_start g g.
Proof. destruct g; cbn; auto. Qed.

Lemma visible_isMove g : visible g <-> isMove g = false.
Proof. destruct g; cbn; split; intros; try discriminate; try contradiction; auto. Qed.

Lemma drawn_app l1 l2 : drawn (l1 ++ l2) = drawn l1 ++ drawn l2.
Proof. induction l1 as [|g r IH]; [reflexivity|]. destruct g; cbn; rewrite ?IH; reflexivity. Qed.

Lemma drawn_cons g l : drawn (g :: l) = (if isMove g then [] else [g]) ++ drawn l.
Proof. destruct g; reflexivity. Qed.

Lemma drawn_filter l : drawn l = filter (fun g => negb (isMove g)) l.
Proof. induction l as [|g r IH]; [reflexivity|]. destruct g; cbn; rewrite ?IH; reflexivity. Qed.

Lemma drawn_rev l : drawn (rev l) = rev (drawn l).
Proof.
  induction l as [|g r IH]; [reflexivity|].
  cbn [rev]. rewrite drawn_app, IH, (drawn_cons g r), rev_app_distr.
  destruct g; reflexivity.
Qed.

Lemma drawn_visible l : Forall visible (drawn l).
Proof. induction l as [|g r IH]; [constructor|]. destruct g; cbn; auto; constructor; cbn; auto. Qed.

Lemma drawn_of_visible l : Forall visible l -> drawn l = l.
Proof. induction 1 as [|g r Hg Hr IH]; [reflexivity|]. destruct g; cbn in *; try contradiction; rewrite IH; reflexivity. Qed.

Lemma drawn_concat (ls : list (list seg)) : drawn (concat ls) = concat (map drawn ls).
Proof. induction ls as [|a r IH]; [reflexivity|]. cbn. rewrite drawn_app, IH. reflexivity. Qed.

Lemma pen_app c l1 l2 : pen c (l1 ++ l2) = pen (pen c l1) l2.
Proof. revert c; induction l1 as [|g r IH]; intros c; [reflexivity|]. cbn. apply IH. Qed.

Lemma chain_app c l1 l2 : chain c (l1 ++ l2) <-> chain c l1 /\ chain (pen c l1) l2.
Proof.
  revert c; induction l1 as [|g r IH]; intros c; cbn [app pen].
  - split; [intros H; split; [constructor|exact H]|tauto].
  - split.
    + intros H; inversion H as [|? ? ? Hs Hc]; subst. apply IH in Hc. destruct Hc.
      split; [constructor; auto|auto].
    + intros [H1 H2]; inversion H1 as [|? ? ? Hs Hc]; subst. constructor; auto. apply IH; auto.
Qed.

Lemma chain_snoc c l g : chain c (l ++ [g]) <-> chain c l /\ same_place (pen c l) (sstart g).
Proof.
  rewrite chain_app. split; intros [H1 H2]; split; auto.
  - inversion H2; auto.
  - constructor; [auto|constructor].
Qed.

Lemma last_nonempty {A} (l : list A) x y : l <> [] -> last l x = last l y.
Proof.
  induction l as [|a r IH]; intros H; [congruence|]. destruct r; [reflexivity|].
  cbn [last] in *. apply IH. discriminate.
Qed.

Lemma pen_last c l g : l <> [] -> pen c l = send (last l g).
Proof.
  revert c; induction l as [|a r IH]; intros c H; [congruence|].
  cbn [pen]. destruct r as [|b r']; [reflexivity|]. rewrite (IH (send a)) by discriminate. reflexivity.
Qed.

Lemma CurrentPosition_pen d : CurrentPosition d = pen origin d.
Proof. destruct d as [|g r]; [reflexivity|]. unfold CurrentPosition. symmetry. apply pen_last; discriminate. Qed.

Lemma CurrentPosition_snoc d g : CurrentPosition (d ++ [g]) = send g.
Proof. rewrite CurrentPosition_pen, pen_app. reflexivity. Qed.

Lemma Tail_snoc d g : Tail (d ++ [g]) = Some g.
Proof.
  induction d as [|a r IH]; [reflexivity|]. cbn [app]. destruct (r ++ [g]) eqn:E.
  - destruct r; discriminate.
  - cbn [Tail]. exact IH.
Qed.

Lemma Tail_pen d g c : Tail d = Some g -> pen c d = send g.
Proof.
  destruct (rev d) as [|a r] eqn:E.
  - apply (f_equal (@rev _)) in E. rewrite rev_involutive in E. subst. discriminate.
  - apply (f_equal (@rev _)) in E. rewrite rev_involutive in E. cbn in E. subst.
    rewrite Tail_snoc, pen_app. intros H; inversion H; reflexivity.
Qed.

(** ** C01 *)
Lemma chain_append_at c d g : chain c d -> same_place (pen c d) (sstart g) -> chain c (d ++ [g]).
Proof. intros; apply chain_snoc; auto. Qed.

(** what every drawing call does: append segments that continue the chain *)
Definition extends (d d' : list seg) : Prop :=
  exists s, d' = d ++ s /\ chain (pen origin d) s.

Lemma extends_refl d : extends d d.
Proof. exists []; split; [symmetry; apply app_nil_r|constructor]. Qed.

Lemma extends_trans d1 d2 d3 : extends d1 d2 -> extends d2 d3 -> extends d1 d3.
Proof.
  intros (s1 & -> & H1) (s2 & -> & H2). exists (s1 ++ s2). rewrite app_assoc. split; auto.
  apply chain_app. split; auto. rewrite pen_app in H2. exact H2.
Qed.

Lemma extends_snoc d g : same_place (pen origin d) (sstart g) -> extends d (d ++ [g]).
Proof. intros H. exists [g]; split; auto. constructor; [exact H|constructor]. Qed.

Lemma extends_append_cur d g : sstart g = CurrentPosition d -> extends d (d ++ [g]).
Proof. intros H. apply extends_snoc. rewrite H, CurrentPosition_pen. apply same_place_refl. Qed.

Lemma AddSegment_aligned d g :
  let cur := CurrentPosition d in
  let g1 := if ptEquals cur (sstart g) then g else setStart g cur in
  extends d (d ++ [g1]).
Proof.
  intros cur g1. apply extends_snoc. rewrite <- CurrentPosition_pen. subst g1.
  destruct (ptEquals cur (sstart g)) eqn:E.
  - apply ptEquals_same_place; exact E.
  - rewrite sstart_setStart. apply same_place_refl.
Qed.

Lemma AddSegment_extends d g : extends d (AddSegment d g).
Proof.
  unfold AddSegment. destruct d as [|a r].
  - destruct (isMove g).
    + apply AddSegment_aligned.
    + eapply extends_trans; [|apply AddSegment_aligned].
      apply (extends_append_cur [] (Move (NewPoint zero zero) (sstart g))). reflexivity.
  - apply AddSegment_aligned.
Qed.

Lemma AddSegments_extends d gs : extends d (AddSegments d gs).
Proof.
  unfold AddSegments. revert d; induction gs as [|g r IH]; intros d; cbn [fold_left].
  - apply extends_refl.
  - eapply extends_trans; [apply AddSegment_extends|apply IH].
Qed.

Lemma MoveTo_extends d (p : P) : extends d (MoveTo d p).
Proof. apply extends_append_cur; reflexivity. Qed.
Lemma LineTo_extends d (p : P) : extends d (LineTo d p).
Proof. apply extends_append_cur; reflexivity. Qed.
Lemma CurveTo_extends d (a b p : P) : extends d (CurveTo d a b p).
Proof. apply extends_append_cur; reflexivity. Qed.

Lemma drawstep_extends tr d o : extends d (drawstep tr d o).
Proof.
  destruct o; cbn [drawstep].
  - apply AddSegment_extends.
  - apply AddSegments_extends.
  - apply MoveTo_extends.
  - apply MoveTo_extends.
  - apply CurveTo_extends.
  - apply CurveTo_extends.
  - apply CurveTo_extends.
  - apply CurveTo_extends.
  - apply CurveTo_extends.
  - apply CurveTo_extends.
  - apply LineTo_extends.
  - apply LineTo_extends.
  - apply extends_append_cur; reflexivity.
  - unfold RoundedCornerTo. eapply extends_trans; [|apply LineTo_extends].
    eapply extends_trans; [|apply CurveTo_extends]. apply LineTo_extends.
  - unfold RelRoundedCornerTo, RoundedCornerTo. eapply extends_trans; [|apply LineTo_extends].
    eapply extends_trans; [|apply CurveTo_extends]. apply LineTo_extends.
  - unfold Circle, RelCurveTo, RelMoveTo.
    do 4 (eapply extends_trans; [|apply CurveTo_extends]). apply MoveTo_extends.
  - unfold Rect, RelLineTo. do 3 (eapply extends_trans; [|apply LineTo_extends]). apply LineTo_extends.
  - apply LineTo_extends.
  - apply LineTo_extends.
  - apply LineTo_extends.
  - apply LineTo_extends.
Qed.

Lemma rundraw_extends tr os d : extends d (rundraw tr os d).
Proof.
  unfold rundraw. revert d; induction os as [|o r IH]; intros d; cbn [fold_left].
  - apply extends_refl.
  - eapply extends_trans; [apply drawstep_extends|apply IH].
Qed.

Lemma rundraw_chain (tr : Trig N) os : chain origin (rundraw tr os NewDraw).
Proof. destruct (rundraw_extends tr os NewDraw) as (s & -> & H). exact H. Qed.

Lemma rundraw_append_only (tr : Trig N) os1 os2 :
  exists s, rundraw tr (os1 ++ os2) NewDraw = rundraw tr os1 NewDraw ++ s.
Proof.
  unfold rundraw. rewrite fold_left_app.
  destruct (rundraw_extends tr os2 (fold_left (drawstep tr) os1 NewDraw)) as (s & H & _).
  exists s; exact H.
Qed.

(** ** C05 *)
Lemma FixHeadMove_drawn l : drawn (FixHeadMove l) = drawn l.
Proof. destruct l as [|[s e|s e|s a e b] r]; try reflexivity. cbn. destruct (_ || _); reflexivity. Qed.

Lemma NPFSWM_drawn l : drawn (NewPathFromSegmentsWithoutMove l) = drawn l.
Proof. apply FixHeadMove_drawn. Qed.

Lemma HeadMove_drawn l : drawn (HeadMove l) = drawn l.
Proof. destruct l as [|[s e|s e|s a e b] r]; reflexivity. Qed.

Lemma NPFS_eq l : NewPathFromSegments l = FixHeadMove (HeadMove l).
Proof. destruct l; reflexivity. Qed.

Lemma NPFS_drawn l : drawn (NewPathFromSegments l) = drawn l.
Proof. rewrite NPFS_eq, FixHeadMove_drawn. apply HeadMove_drawn. Qed.

Lemma FixHeadMove_origin l : (exists s e r, l = Move s e :: r) -> starts_with_origin_move (FixHeadMove l).
Proof.
  intros (s & e & r & ->). cbn. destruct (eqb (px s) zero) eqn:Ex, (eqb (py s) zero) eqn:Ey; cbn.
  - exists s, e, r. auto.
  - exists zeroPt, e, r; auto.
  - exists zeroPt, e, r; auto.
  - exists zeroPt, e, r; auto.
Qed.

Lemma NPFS_origin l : l <> [] -> starts_with_origin_move (NewPathFromSegments l).
Proof.
  intros H. rewrite NPFS_eq. apply FixHeadMove_origin.
  destruct l as [|[s e|s e|s a e b] r]; [congruence| | |]; cbn; eauto.
Qed.

Lemma dropMoves_drawn l : drawn (dropMoves l) = drawn l.
Proof. induction l as [|[s e|s e|s a e b] r IH]; try reflexivity. exact IH. Qed.

Lemma TrimTailMove_drawn l : drawn (TrimTailMove l) = drawn l.
Proof. unfold TrimTailMove. rewrite drawn_rev, dropMoves_drawn, drawn_rev. apply rev_involutive. Qed.

Lemma TrimMove_drawn l : drawn (TrimMove l) = drawn l.
Proof.
  induction l as [|g r IH]; [reflexivity|]. cbn [TrimMove].
  destruct g; cbn [isMove]; auto; apply TrimTailMove_drawn.
Qed.

(** the removed parts are exactly a prefix and a suffix of moves *)
Lemma dropMoves_prefix l : exists m, l = m ++ dropMoves l /\ Forall (fun g => ~ visible g) m.
Proof.
  induction l as [|g r IH]; [exists []; auto|].
  destruct g as [s e|s e|s a e b]; cbn [dropMoves isMove].
  - destruct IH as (m & E & Hm). exists (Move s e :: m). split.
    + cbn. f_equal. exact E.
    + constructor; auto.
  - exists []; split; auto.
  - exists []; split; auto.
Qed.

Lemma dropMoves_head l : dropMoves l = [] \/ exists g r, dropMoves l = g :: r /\ visible g.
Proof.
  induction l as [|g r IH]; [auto|]. destruct g; cbn [dropMoves isMove]; auto; right; do 2 eexists; split; try reflexivity; exact I.
Qed.

Lemma TrimTailMove_suffix l : exists m, l = TrimTailMove l ++ m /\ Forall (fun g => ~ visible g) m.
Proof.
  unfold TrimTailMove. destruct (dropMoves_prefix (rev l)) as (m & E & Hm).
  exists (rev m). split.
  - rewrite <- rev_app_distr, <- E. symmetry. apply rev_involutive.
  - apply Forall_rev. exact Hm.
Qed.

Lemma TrimMove_pieces l : exists m1 m2, l = m1 ++ TrimMove l ++ m2 /\
  Forall (fun g => ~ visible g) m1 /\ Forall (fun g => ~ visible g) m2.
Proof.
  induction l as [|g r IH]; [exists [], []; auto|].
  destruct (isMove g) eqn:Eg; cbn [TrimMove]; rewrite Eg.
  - destruct IH as (m1 & m2 & E & H1 & H2). exists (g :: m1), m2. split; [cbn; f_equal; exact E|].
    split; auto. constructor; auto. intros Hv. apply visible_isMove in Hv. congruence.
  - destruct (TrimTailMove_suffix (g :: r)) as (m & E & Hm). exists [], m. auto.
Qed.

Lemma TrimTailMove_ends l : TrimTailMove l = [] \/ exists i g, TrimTailMove l = i ++ [g] /\ visible g.
Proof.
  unfold TrimTailMove. destruct (dropMoves_head (rev l)) as [E|(g & r & E & Hv)]; rewrite E.
  - left; reflexivity.
  - right. exists (rev r), g. auto.
Qed.

Lemma TrimMove_ends l : TrimMove l = [] \/
  (exists g r, TrimMove l = g :: r /\ visible g) /\ (exists i g, TrimMove l = i ++ [g] /\ visible g).
Proof.
  induction l as [|g r IH]; [auto|].
  destruct (isMove g) eqn:Eg; cbn [TrimMove]; rewrite Eg; [exact IH|].
  assert (Hg : visible g) by (apply visible_isMove; exact Eg).
  destruct (TrimTailMove_ends (g :: r)) as [E|(i & h & E & Hv)].
  - exfalso. destruct (TrimTailMove_suffix (g :: r)) as (m & Em & Hm). rewrite E in Em. cbn in Em.
    subst m. inversion Hm. contradiction.
  - right. split; [|eauto].
    destruct (TrimTailMove_suffix (g :: r)) as (m & Em & Hm). rewrite E in *.
    destruct i as [|a i']; cbn in *.
    + inversion Em; subst. eauto.
    + inversion Em; subst. eauto.
Qed.

Lemma TrimTailMove_id i g : visible g -> TrimTailMove (i ++ [g]) = i ++ [g].
Proof.
  intros Hv. unfold TrimTailMove. rewrite rev_app_distr. cbn.
  apply visible_isMove in Hv. rewrite Hv. cbn. rewrite rev_involutive. reflexivity.
Qed.

Lemma TrimMove_idem l : TrimMove (TrimMove l) = TrimMove l.
Proof.
  destruct (TrimMove_ends l) as [E|[(g & r & E & Hg) (i & h & E' & Hh)]].
  - rewrite E; reflexivity.
  - rewrite E. cbn [TrimMove]. apply visible_isMove in Hg. rewrite Hg. rewrite <- E, E'.
    apply TrimTailMove_id; exact Hh.
Qed.

(** ** C06 *)
Lemma IsEmptyPath_drawn p : IsEmptyPath p = true <-> drawn p = [].
Proof.
  unfold IsEmptyPath. induction p as [|g r IH]; [cbn; tauto|].
  destruct g; cbn; try exact IH; split; discriminate.
Qed.

(** a piece as SplitPathOnMove builds it: a head move from the origin, then visible segments, connected *)
Definition piece (q : list seg) : Prop :=
  exists s e body, q = Move s e :: body /\ same_place origin s /\ Forall visible body /\ chain e body.

Lemma AddSegment_connected d g : d <> [] -> same_place (pen origin d) (sstart g) -> AddSegment d g = d ++ [g].
Proof.
  intros Hd Hs. unfold AddSegment. destruct d as [|a r]; [congruence|].
  rewrite CurrentPosition_pen. destruct (ptEquals _ _) eqn:E; [reflexivity|].
  destruct Hs as [Hs|[Hx Hy]].
  - rewrite Hs, setStart_same. reflexivity.
  - unfold ptEquals in E. rewrite Hx, Hy in E. discriminate.
Qed.

Lemma AddSegment_new_move g : isMove g = true ->
  piece (AddSegment NewDraw g) /\ pen origin (AddSegment NewDraw g) = send g /\ drawn (AddSegment NewDraw g) = [].
Proof.
  intros Hg. unfold AddSegment, NewDraw. rewrite Hg. cbn [app CurrentPosition].
  destruct g as [s e| |]; try discriminate.
  destruct (ptEquals _ _) eqn:E; cbn.
  - split; [|auto]. exists s, e, []. split; [reflexivity|]. split; [apply ptEquals_same_place; exact E|]. split; constructor.
  - split; [|auto]. exists origin, e, []. split; [reflexivity|]. split; [apply same_place_refl|]. split; constructor.
Qed.

Lemma AddSegment_new_visible g : isMove g = false ->
  AddSegment NewDraw g = [Move origin (sstart g); g].
Proof.
  intros Hg. unfold AddSegment, NewDraw. rewrite Hg. cbn [app CurrentPosition last send].
  destruct (ptEquals _ _) eqn:E; [reflexivity|]. rewrite setStart_same. reflexivity.
Qed.

Lemma split_loop_spec segs : forall (q : list seg) (paths : list (list seg)),
  piece q -> chain (pen origin q) segs ->
  concat (map drawn (split_loop false q segs paths)) = concat (map drawn paths) ++ drawn q ++ drawn segs /\
  (Forall (fun a => piece a /\ drawn a <> []) paths ->
   Forall (fun a => piece a /\ drawn a <> []) (split_loop false q segs paths)).
Proof.
  induction segs as [|c r IH]; intros q paths Hq Hc; cbn [split_loop].
  - destruct (IsEmptyPath q) eqn:E.
    + apply IsEmptyPath_drawn in E. rewrite E. cbn. rewrite app_nil_r. auto.
    + rewrite map_app, concat_app. cbn. rewrite !app_nil_r. split; auto.
      intros H. apply Forall_app. split; auto. constructor; auto. split; auto.
      intros H0. apply IsEmptyPath_drawn in H0. congruence.
  - inversion Hc as [|? ? ? Hs Hr]; subst.
    destruct (isMove c) eqn:Em; cbn [negb andb]; cbv zeta.
    + destruct (AddSegment_new_move c Em) as (Hp & Hpen & Hdr).
      destruct (IH (AddSegment NewDraw c) (if IsEmptyPath q then paths else paths ++ [q]) Hp) as [H1 H2].
      { rewrite Hpen; exact Hr. }
      split.
      * rewrite H1, Hdr. rewrite (drawn_cons c r), Em. cbn [app].
        destruct (IsEmptyPath q) eqn:E.
        -- apply IsEmptyPath_drawn in E. rewrite E. reflexivity.
        -- rewrite map_app, concat_app. cbn. rewrite app_nil_r, <- app_assoc. reflexivity.
      * intros H. apply H2. destruct (IsEmptyPath q) eqn:E; auto.
        apply Forall_app. split; auto. constructor; auto. split; auto.
        intros H0. apply IsEmptyPath_drawn in H0. congruence.
    + assert (Hne : q <> []) by (destruct Hq as (s & e & b & -> & _); discriminate).
      rewrite (AddSegment_connected q c Hne Hs).
      destruct (IH (q ++ [c]) paths) as [H1 H2].
      * destruct Hq as (s & e & body & -> & Ho & Hv & Hch). exists s, e, (body ++ [c]).
        repeat split; auto.
        -- apply Forall_app; split; auto. constructor; auto. apply visible_isMove; exact Em.
        -- apply chain_snoc. split; auto.
      * rewrite pen_app. exact Hr.
      * split; auto. rewrite H1, drawn_app, (drawn_cons c r), (drawn_cons c []), Em. cbn. rewrite <- !app_assoc. reflexivity.
Qed.

Lemma SplitPathOnMove_spec p : connected p ->
  concat (map drawn (SplitPathOnMove p)) = drawn p /\
  Forall (fun a => piece a /\ drawn a <> []) (SplitPathOnMove p).
Proof.
  unfold SplitPathOnMove. destruct p as [|c r]; intros Hc.
  - cbn. split; [reflexivity|constructor].
  - cbn [split_loop negb andb]. inversion Hc as [|? ? ? Hs Hr]; subst.
    destruct (isMove c) eqn:Em.
    + destruct (AddSegment_new_move c Em) as (Hp & Hpen & Hdr).
      destruct (split_loop_spec r (AddSegment NewDraw c) [] Hp) as [H1 H2]; [rewrite Hpen; exact Hr|].
      split; [|apply H2; constructor]. rewrite H1, Hdr, (drawn_cons c r), Em. reflexivity.
    + rewrite (AddSegment_new_visible c Em).
      destruct (split_loop_spec r [Move origin (sstart c); c] []) as [H1 H2].
      * exists origin, (sstart c), [c]. repeat split; auto.
        -- apply same_place_refl.
        -- constructor; [apply visible_isMove; exact Em|constructor].
        -- constructor; [apply same_place_refl|constructor].
      * exact Hr.
      * split; [|apply H2; constructor]. rewrite H1. rewrite (drawn_cons c r), (drawn_cons _ [c]), (drawn_cons c []), Em. reflexivity.
Qed.

End Proofs.

(** ** C46 *)
Section DeDup.
(** spec: first occurrences in order *)
Lemma StringArrayDeDup_loop_spec a : forall keys,
  (forall x, In x (StringArrayDeDup_loop keys a) <-> In x a /\ ~ In x keys) /\
  NoDup (StringArrayDeDup_loop keys a).
Proof.
  induction a as [|x r IH]; intros keys; cbn [StringArrayDeDup_loop].
  - split; [cbn; tauto|constructor].
  - destruct (existsb (String.eqb x) keys) eqn:E.
    + apply existsb_exists in E. destruct E as (k & Hk & Ek). apply String.eqb_eq in Ek. subst k.
      destruct (IH keys) as [H1 H2]. split; auto. intros y. rewrite H1. cbn.
      split; [tauto|]. intros [[->|Hy] Hn]; tauto.
    + assert (Hn : ~ In x keys).
      { intros Hin. assert (existsb (String.eqb x) keys = true); [|congruence].
        apply existsb_exists. exists x. split; auto. apply String.eqb_refl. }
      destruct (IH (x :: keys)) as [H1 H2]. split.
      * intros y. cbn. rewrite H1. cbn. split.
        -- intros [->|[Hy Hk]]; tauto.
        -- intros [[->|Hy] Hk]; [tauto|]. destruct (string_dec x y); [tauto|]. right; tauto.
      * constructor; auto. rewrite H1. cbn. tauto.
Qed.
End DeDup.
