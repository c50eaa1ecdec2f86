(** Proofs about the sheet layout (C25, C49). *)
From Coq Require Import List ZArith Bool Lia Reals Lra Permutation.
From Verif Require Import Num NumLaws FloatNum RealNum PathModel BinPack BinPackProofs BinPackGeom BinPackPad PlanSet.
Import ListNotations.

(** the parts drawn on a sheet, in drawing order *)
Definition sheetParts {N O} (d : sheet N O) : list (rpart N O) := map r_part (s_renderables d).

(** ** facts for every float type *)
Section Any.
Context {N : Num} {O : Type}.
Notation F := (T N).
Notation sheet := (sheet N O).
Notation rpart := (rpart N O).
Notation bin := (bin N O).
Implicit Types (d : sheet) (ds : list sheet) (q : rpart) (b : bin).

Lemma leafInsert_nonempty f : forall r rot obj (o : O) (w h : F) a b',
  leafInsert f r rot obj o w h = Ok (Some a, b') -> IsEmpty b' = false.
Proof.
  destruct f as [|f]; intros r rot obj o w h a b'; [discriminate|]. cbn [leafInsert].
  destruct (_ || _); [discriminate|]. cbv zeta. destruct (_ && _); [discriminate|].
  destruct obj; [discriminate|]. destruct (_ && _); [intros E; injection E as <- <-; reflexivity|].
  destruct (if gtb _ _ then _ else _) as [lr rr].
  destruct (leafInsert _ _ _ _ _ _ _) as [[x y]| | |]; cbn [bind]; try discriminate. intros E; injection E as -> <-. reflexivity.
Qed.
Lemma Insert_nonempty f b (o : O) (w h : F) a b' : Insert f b o w h = Ok (Some a, b') -> IsEmpty b' = false.
Proof.
  destruct b as [r rot obj|r rot l rr]; cbn [Insert]; [apply leafInsert_nonempty|].
  destruct (Insert f l o w h) as [[[x|] y]| | |]; cbn [bind]; try discriminate.
  - intros E; injection E as -> <-. reflexivity.
  - destruct (Insert f rr o w h) as [[x' y']| | |]; cbn [bind]; try discriminate. intros E; injection E as -> <-. reflexivity.
Qed.
Lemma InsertWithPadding_nonempty f b (o : O) (w h p : F) a b' : InsertWithPadding f b o w h p = Ok (Some a, b') -> IsEmpty b' = false.
Proof.
  unfold InsertWithPadding. destruct (Insert f b o _ _) as [[[x|] y]| | |] eqn:E; cbn [bind]; try discriminate.
  intros Q. destruct x. injection Q as <- <-. eapply Insert_nonempty; eauto.
Qed.

(** what one Add does to the drawing: nothing, or one more part at the end *)
Lemma addToSheet_grow f d q ok d' : addToSheet f d q = Ok (ok, d') ->
  s_padding d' = s_padding d /\
  if ok then exists x, s_renderables d' = s_renderables d ++ [x] /\ r_part x = q else s_renderables d' = s_renderables d.
Proof.
  destruct q as [[o w] h]. unfold addToSheet. destruct (_ || _); [discriminate|]. destruct (_ || _); [discriminate|].
  destruct (InsertWithPadding _ _ _ _ _ _) as [[[[r rot]|] c']| | |]; cbn [bind]; try discriminate.
  - intros E; injection E as <- <-. cbn. split; [reflexivity|]. eexists; split; reflexivity.
  - destruct (IsEmpty c'); intros E; injection E as <- <-; cbn; split; try reflexivity. eexists; split; reflexivity.
Qed.

(** the sheets [ds'] extend the sheets [ds] *)
Definition extends (d d' : sheet) : Prop := exists more, s_renderables d' = s_renderables d ++ more.
Definition grown (ds ds' : list sheet) : Prop := exists a e, ds' = a ++ e /\ Forall2 extends ds a.

Lemma extends_refl d : extends d d.
Proof. exists []. rewrite app_nil_r. reflexivity. Qed.
Lemma extends_trans d d1 d2 : extends d d1 -> extends d1 d2 -> extends d d2.
Proof. intros [m1 E1] [m2 E2]. exists (m1 ++ m2). rewrite E2, E1, app_assoc. reflexivity. Qed.
Lemma Forall2_extends_refl ds : Forall2 extends ds ds.
Proof. induction ds; constructor; auto using extends_refl. Qed.
Lemma grown_refl ds : grown ds ds.
Proof. exists ds, []. split; [rewrite app_nil_r; reflexivity|apply Forall2_extends_refl]. Qed.
Lemma Forall2_trans {A} (R : A -> A -> Prop) (HR : forall x y z, R x y -> R y z -> R x z) l1 : forall l2 l3,
  Forall2 R l1 l2 -> Forall2 R l2 l3 -> Forall2 R l1 l3.
Proof.
  induction l1 as [|x l1 IH]; intros l2 l3 H1 H2; inversion H1; subst; inversion H2; subst; constructor; eauto.
Qed.
Lemma grown_trans ds ds1 ds2 : grown ds ds1 -> grown ds1 ds2 -> grown ds ds2.
Proof.
  intros (a & b & -> & H1) (a' & b' & -> & H2). apply Forall2_app_inv_l in H2 as (l1 & l2 & H3 & H4 & ->).
  exists l1, (l2 ++ b'). split; [rewrite app_assoc; reflexivity|]. eapply Forall2_trans; eauto using extends_trans.
Qed.

Lemma addLoop_grow f q : forall ds ok ds', addLoop f ds q = Ok (ok, ds') -> Forall2 extends ds ds'.
Proof.
  induction ds as [|d rest IH]; intros ok ds'; cbn [addLoop].
  - intros E; injection E as <- <-. constructor.
  - destruct (addToSheet f d q) as [[ok1 d1]| | |] eqn:E1; cbn [bind]; try discriminate.
    apply addToSheet_grow in E1 as [_ E1]. assert (X : extends d d1).
    { destruct ok1; [destruct E1 as (x & E1 & _); exists [x]; exact E1|exists []; rewrite app_nil_r; exact E1]. }
    destruct ok1.
    + intros E; injection E as <- <-. constructor; [exact X|apply Forall2_extends_refl].
    + destruct (addLoop f rest q) as [[ok2 r2]| | |] eqn:E2; cbn [bind]; try discriminate.
      intros E; injection E as <- <-. constructor; [exact X|eapply IH; reflexivity].
Qed.
Lemma addPart_grow f w h p ds q ok ds' : addPart f w h p ds q = Ok (ok, ds') -> grown ds ds'.
Proof.
  unfold addPart. destruct (addLoop f ds q) as [[ok1 ds1]| | |] eqn:E1; cbn [bind]; try discriminate.
  apply addLoop_grow in E1. destruct ok1.
  - intros E; injection E as <- <-. exists ds1, []. rewrite app_nil_r. auto.
  - destruct (addToSheet f (newSheet w h p) q) as [[[|] d]| | |]; cbn [bind]; try discriminate; intros E; injection E as <- <-.
    + exists ds1, [d]. auto.
    + exists ds1, []. rewrite app_nil_r. auto.
Qed.
Lemma addAll_grow f w h p qs : forall ds ds', addAll f w h p ds qs = Ok ds' -> grown ds ds'.
Proof.
  induction qs as [|q rest IH]; intros ds ds'; cbn [addAll].
  - intros E; injection E as <-. apply grown_refl.
  - destruct (addPart f w h p ds q) as [[[|] ds1]| | |] eqn:E1; cbn [bind]; try discriminate.
    intros E. eapply grown_trans; [eapply addPart_grow; eauto|apply IH; exact E].
Qed.
Lemma addAll_app f w h p qs1 : forall ds qs2,
  addAll f w h p ds (qs1 ++ qs2) = bind (addAll f w h p ds qs1) (fun ds1 => addAll f w h p ds1 qs2).
Proof.
  induction qs1 as [|q rest IH]; intros ds qs2; [reflexivity|]. cbn [app addAll].
  destruct (addPart f w h p ds q) as [[[|] ds1]| | |]; cbn [bind]; auto.
Qed.

(** a part without area or with NaN size *)
Definition badSize q : Prop := let '(_, w, h) := q in leb h zero || leb w zero || (isnan w || isnan h) = true.
Lemma addToSheet_bad f d q : badSize q -> addToSheet f d q = Err.
Proof.
  destruct q as [[o w] h]. unfold addToSheet, badSize. destruct (leb h zero || leb w zero); [reflexivity|].
  cbn [orb]. intros ->. reflexivity.
Qed.
Lemma addPart_bad f w h p ds q : badSize q -> addPart f w h p ds q = Err.
Proof.
  intros H. unfold addPart. destruct ds as [|d r]; cbn [addLoop bind]; rewrite (addToSheet_bad _ _ _ H); reflexivity.
Qed.
End Any.

(** ** with the laws of the packer *)
Section Laws.
Context {N : Num} {O : Type} (L : PackLaws N).
Notation F := (T N).
Notation sheet := (sheet N O).
Notation rpart := (rpart N O).
Notation bin := (bin N O).
Implicit Types (d : sheet) (ds : list sheet) (q : rpart) (b : bin).
Variables W H p : F.
Hypothesis FW : fin L W.
Hypothesis FH : fin L H.

(** positive, not NaN, and finite and positive with the padding added *)
Definition okPart q : Prop := let '(_, w, h) := q in
  leb w zero = false /\ leb h zero = false /\ isnan w = false /\ isnan h = false /\ pos L (paddedSize p w) /\ pos L (paddedSize p h).
Definition tooBig q : Prop := let '(_, w, h) := q in ~ fits2 (mkRect zero zero W H) (paddedSize p w) (paddedSize p h).

Fixpoint successes (qs : list rpart) (l : list (placement (N:=N))) : list (renderable N O) :=
  match qs, l with
  | q :: qs', Some (r, rot) :: l' => mkRenderable q (NewPoint (rx r) (ry r)) rot :: successes qs' l'
  | _ :: qs', None :: l' => successes qs' l'
  | _, _ => []
  end.

Definition reached d : Prop := exists qs ans,
  Forall okPart qs /\ insertsPadded 3 p (NewContainer zero zero W H) qs = Ok (ans, s_container d) /\
  s_renderables d = successes qs ans /\ binFin L (s_container d) /\ length ans = length qs /\
  (IsEmpty (s_container d) = true -> s_container d = NewContainer zero zero W H /\ s_renderables d = []).
Definition single d : Prop := exists q o,
  fst (fst q) = o /\ okPart q /\ tooBig q /\ s_renderables d = [mkRenderable q (NewPoint zero zero) false] /\
  s_container d = Leaf (mkRect zero zero W H) false (Some o).
Definition sheetOk d : Prop := s_padding d = p /\ (reached d \/ single d).

Lemma insertsPadded_app f (b : bin) qs1 : forall b0 qs2,
  insertsPadded f p b0 (qs1 ++ qs2) =
  bind (insertsPadded f p b0 qs1) (fun '(a1, b1) => bind (insertsPadded f p b1 qs2) (fun '(a2, b2) => Ok (a1 ++ a2, b2))).
Proof.
  induction qs1 as [|[[o w] h] rest IH]; intros b0 qs2; cbn [app insertsPadded bind].
  - destruct (insertsPadded f p b0 qs2) as [[? ?]| | |]; reflexivity.
  - destruct (InsertWithPadding f b0 o w h p) as [[a b1]| | |]; cbn [bind]; auto. rewrite IH.
    destruct (insertsPadded f p b1 rest) as [[a1 b2]| | |]; cbn [bind]; auto.
    destruct (insertsPadded f p b2 qs2) as [[a2 b3]| | |]; cbn [bind]; auto.
Qed.
Lemma successes_app qs1 : forall l1 qs2 l2, length l1 = length qs1 -> successes (qs1 ++ qs2) (l1 ++ l2) = successes qs1 l1 ++ successes qs2 l2.
Proof.
  induction qs1 as [|q r IH]; intros [|a l1] qs2 l2 E; cbn in E; try discriminate; [reflexivity|].
  injection E as E. cbn [app successes]. destruct a as [[x y]|]; rewrite IH by exact E; reflexivity.
Qed.

(** one Insert with padding, for a part of ok size *)
Lemma pad_spec b o w h : binFin L b -> okPart (o, w, h) ->
  (exists r rot b', InsertWithPadding 3 b o w h p = Ok (Some (r, rot), b') /\ binFin L b') \/
  (InsertWithPadding 3 b o w h p = Ok (None, b) /\ Forall (fun e => ~ fits2 e (paddedSize p w) (paddedSize p h)) (getEmpties b)).
Proof.
  intros Hb (_ & _ & _ & _ & Pw & Ph). unfold InsertWithPadding.
  destruct (Insert_spec L o _ _ 0 Pw Ph b Hb) as [(r & rot & b' & E & Hb' & _)|[E Fn]]; rewrite E; cbn [bind].
  - left. eexists _, _, _. split; [reflexivity|exact Hb'].
  - right. auto.
Qed.

Lemma add_spec d q : sheetOk d -> okPart q ->
  (exists d', addToSheet 3 d q = Ok (true, d') /\ sheetOk d' /\ sheetParts d' = sheetParts d ++ [q]) \/
  (addToSheet 3 d q = Ok (false, d) /\ IsEmpty (s_container d) = false).
Proof.
  destruct q as [[o w] h]. intros [Ep Hd] Hq. unfold addToSheet. pose proof Hq as (Hw & Hh & Nw & Nh & Pw & Ph).
  rewrite Hh, Hw, Nw, Nh. cbn [orb]. rewrite Ep.
  destruct Hd as [(qs & ans & Fq & E & Er & Hb & Hl & He)|(q1 & o1 & Eo & Hq1 & Hbig & Er & Ec)].
  - destruct (pad_spec (s_container d) o w h Hb Hq) as [(r & rot & b' & Ei & Hb')|[Ei Fn]]; rewrite Ei; cbn [bind].
    + left. eexists. split; [reflexivity|]. split.
      * split; [reflexivity|]. left. exists (qs ++ [(o, w, h)]), (ans ++ [Some (r, rot)]). cbn [s_container s_renderables].
        split; [apply Forall_app; auto|]. split.
        { rewrite (insertsPadded_app 3 b'), E. cbn [bind insertsPadded]. rewrite Ei. reflexivity. }
        split; [rewrite successes_app, Er by exact Hl; reflexivity|]. split; [exact Hb'|].
        split; [rewrite !app_length, Hl; reflexivity|]. intros C. apply InsertWithPadding_nonempty in Ei. congruence.
      * unfold sheetParts. cbn [s_renderables]. rewrite map_app. reflexivity.
    + destruct (IsEmpty (s_container d)) eqn:Ee.
      * left. destruct (He eq_refl) as [Ec Er0]. eexists. split; [reflexivity|]. split.
        { split; [reflexivity|]. right. exists (o, w, h), o. cbn [s_container s_renderables fst]. rewrite Er0, Ec in *.
          split; [reflexivity|]. split; [exact Hq|]. split; [|split; reflexivity].
          cbn [getEmpties NewContainer NewBin] in Fn. inversion Fn; assumption. }
        unfold sheetParts. cbn [s_renderables]. rewrite map_app. reflexivity.
      * right. split; [|reflexivity]. destruct d as [dp dc dr]. cbn in *. rewrite Ep. reflexivity.
  - rewrite Ec. assert (Hb : binFin L (Leaf (mkRect zero zero W H) false (Some o1) : bin)) by (split; assumption).
    destruct (pad_spec _ o w h Hb Hq) as [(r & rot & b' & Ei & Hb')|[Ei Fn]].
    + exfalso. unfold InsertWithPadding in Ei. cbn [Insert] in Ei.
      rewrite (leafInsert_none L _ _ _ _ _ _ _ Hb Pw Ph) in Ei by (left; discriminate). cbn [bind] in Ei. discriminate.
    + rewrite Ei. cbn [bind IsEmpty]. right. split; [|reflexivity]. destruct d as [dp dc dr]. cbn in *. rewrite Ep, Ec. reflexivity.
Qed.

Lemma newSheet_ok : sheetOk (newSheet W H p).
Proof.
  split; [reflexivity|]. left. exists [], []. split; [constructor|]. split; [reflexivity|]. split; [reflexivity|].
  split; [split; assumption|]. split; [reflexivity|]. auto.
Qed.

Lemma addLoop_spec q : okPart q -> forall ds, Forall sheetOk ds ->
  (exists l1 d d' l2, ds = l1 ++ d :: l2 /\ addLoop 3 ds q = Ok (true, l1 ++ d' :: l2) /\ sheetOk d' /\ sheetParts d' = sheetParts d ++ [q]) \/
  addLoop 3 ds q = Ok (false, ds).
Proof.
  intros Hq. induction 1 as [|d rest Hd Hr IH]; [right; reflexivity|]. cbn [addLoop].
  destruct (add_spec d q Hd Hq) as [(d' & E & Hd' & Ep)|[E _]]; rewrite E; cbn [bind].
  - left. exists [], d, d', rest. auto.
  - destruct IH as [(l1 & d1 & d1' & l2 & -> & E2 & Hd' & Ep)|E2]; rewrite E2; cbn [bind].
    + left. exists (d :: l1), d1, d1', l2. auto.
    + right. reflexivity.
Qed.

Definition allParts ds : list rpart := concat (map sheetParts ds).

Lemma addPart_spec q ds : okPart q -> Forall sheetOk ds ->
  exists ds', addPart 3 W H p ds q = Ok (true, ds') /\ Forall sheetOk ds' /\ Permutation (allParts ds') (q :: allParts ds).
Proof.
  intros Hq Hds. unfold addPart. destruct (addLoop_spec q Hq ds Hds) as [(l1 & d & d' & l2 & -> & E & Hd' & Ep)|E]; rewrite E; cbn [bind].
  - exists (l1 ++ d' :: l2). split; [reflexivity|]. apply Forall_app in Hds as [H1 H2]. inversion H2; subst. split.
    + apply Forall_app. auto.
    + unfold allParts. rewrite !map_app, !concat_app. cbn [map concat]. rewrite Ep.
      rewrite <- !app_assoc. cbn [app]. rewrite (app_assoc (concat _)), (app_assoc (concat _) (sheetParts d)).
      symmetry. apply Permutation_middle.
  - destruct (add_spec (newSheet W H p) q newSheet_ok Hq) as [(d' & E2 & Hd' & Ep)|[_ C]]; [|discriminate].
    rewrite E2. cbn [bind]. exists (ds ++ [d']). split; [reflexivity|]. split; [apply Forall_app; auto|].
    unfold allParts. rewrite map_app, concat_app. cbn [map concat]. rewrite Ep. cbn. rewrite Permutation_app_comm. reflexivity.
Qed.

Lemma addAll_spec qs : Forall okPart qs -> forall ds, Forall sheetOk ds ->
  exists ds', addAll 3 W H p ds qs = Ok ds' /\ Forall sheetOk ds' /\ Permutation (allParts ds') (qs ++ allParts ds).
Proof.
  induction 1 as [|q rest Hq Hr IH]; intros ds Hds; cbn [addAll].
  - exists ds. auto.
  - destruct (addPart_spec q ds Hq Hds) as (ds1 & E1 & H1 & P1). rewrite E1. cbn [bind].
    destruct (IH ds1 H1) as (ds2 & E2 & H2 & P2). exists ds2. split; [exact E2|]. split; [exact H2|].
    rewrite P2, P1. cbn [app]. symmetry. apply Permutation_middle.
Qed.

Lemma Init_spec qs : Forall okPart qs ->
  exists ds, Init 3 W H p qs = Ok ds /\ Forall sheetOk ds /\ Permutation (allParts ds) qs.
Proof.
  intros Hq. destruct (addAll_spec qs Hq [newSheet W H p]) as (ds & E & Hd & P); [constructor; [exact newSheet_ok|constructor]|].
  exists ds. split; [exact E|]. split; [exact Hd|]. rewrite P. cbn. rewrite app_nil_r. reflexivity.
Qed.
End Laws.

(** ** exact arithmetic: nothing overlaps on any sheet *)
Section Exact.
Context {O : Type}.
Notation sheet := (sheet RNum O).
Notation rpart := (rpart RNum O).
Local Open Scope R_scope.

(** the ground a drawn part would take upright: its position and its size *)
Definition ground (x : renderable RNum O) : rectR :=
  let '(_, w, h) := r_part x in mkRect (px (r_pos x)) (py (r_pos x)) w h.

Lemma norm0_Fin x : norm0 (Fin x : T RNum) = Fin x.
Proof. unfold norm0. cbn. destruct (Reqb_spec x 0); subst; reflexivity. Qed.

Lemma okPart_posReq p (q : rpart) : okPart RNum_pack (Fin p : T RNum) q -> posReq q.
Proof.
  destruct q as [[o [w| |]] [h| |]]; intros (Hw & Hh & _ & _ & [[r Fw] _] & [[r' Fh] _]); cbn in Fw, Fh; try discriminate.
  exists w, h. split; [exists o; reflexivity|]. cbn in Hw, Hh. apply Rleb_false in Hw, Hh. auto.
Qed.
Lemma posReq_okPart p (q : rpart) : 0 <= p -> posReq q -> okPart RNum_pack (Fin p : T RNum) q.
Proof.
  intros Hp (w & h & (o & ->) & Hw & Hh). unfold okPart. split; [apply Rleb_false; exact Hw|]. split; [apply Rleb_false; exact Hh|].
  split; [reflexivity|]. split; [reflexivity|]. split; apply pos_Fin; lra.
Qed.

Lemma sheet_layout (p W H : R) (d : sheet) : 0 <= p -> 0 <= W -> 0 <= H ->
  reached RNum_pack (Fin W : T RNum) (Fin H : T RNum) (Fin p : T RNum) d ->
  exists foots, Forall2 (fun x g => g = ground x \/ g = turn (ground x)) (s_renderables d) foots /\
    Forall (clear_of_edges p 0 0 W H) foots /\ pairwise (apart (2 * p)) foots.
Proof.
  intros Hp HW HH (qs & ans & Fq & E & Er & Hb & Hl & He).
  assert (Hq : Forall posReq qs) by (eapply Forall_impl; [|exact Fq]; intros q; apply okPart_posReq).
  destruct (@padded_history O 0 p 0 0 W H qs Hp HW HH Hq) as (ans' & b' & foots & E' & S & Fo & Ce & Ap).
  change (NewContainer (Fin 0 : T RNum) (Fin 0 : T RNum)) with (@NewContainer RNum O (@zero RNum) (@zero RNum)) in E'.
  rewrite E in E'. injection E' as <- <-. rewrite Er. clear E Er Hb He Fq.
  set (cat := fun l : list (option rectR) => concat (map (fun o => match o with Some g => [g] | None => [] end) l)).
  exists (cat foots). split; [|split].
  - clear Ce Ap Hq Hl. revert ans foots S Fo. induction qs as [|q qs IH]; intros ans foots S Fo; inversion S as [|? a ? l Ha Sl]; subst; inversion Fo as [|? g ? gs Hg Fg]; subst.
    + constructor.
    + destruct a as [[r rot]|]; destruct g as [g|]; try contradiction; cbn [successes cat map concat app].
      * constructor; [|apply IH; assumption]. destruct Ha as (x & y & w & h & [o ->] & Hr). unfold rectIs in Hr. subst r.
        cbn [rx ry ground r_part r_pos px py NewPoint]. rewrite !norm0_Fin. exact Hg.
      * apply IH; assumption.
  - clear - Ce. induction Ce as [|[g|] l Hg Hl IH]; cbn; [constructor|constructor; assumption|assumption].
  - assert (AS : forall a b, apart (2 * p) a b -> apart (2 * p) b a).
    { intros a b (x & y & w & h & x' & y' & w' & h' & E1 & E2 & HD). exists x', y', w', h', x, y, w, h. tauto. }
    assert (FP : ForallOrdPairs (apart (2 * p)) (cat foots)).
    { clear - Ap. induction foots as [|[g|] l IH]; cbn; [constructor| |].
      - constructor.
        + apply Forall_forall. intros b Hb. unfold cat in Hb. apply in_concat in Hb as (x & Hx & Hb). apply in_map_iff in Hx as (o & <- & Ho).
          destruct o as [g'|]; [|destruct Hb]. destruct Hb as [->|[]]. apply In_nth_error in Ho as [j Hj].
          apply (Ap 0%nat (S j) (Some g) (Some b)); [discriminate|reflexivity|exact Hj].
        + apply IH. intros i j a b Hij Hi Hj. apply (Ap (S i) (S j)); auto.
      - apply IH. intros i j a b Hij Hi Hj. apply (Ap (S i) (S j)); auto. }
    clear - FP AS. induction FP as [|a l Ha Hl IH]; intros i j x y Hij Hi Hj.
    + destruct i; discriminate.
    + rewrite Forall_forall in Ha. destruct i as [|i], j as [|j]; cbn in Hi, Hj; try congruence.
      * injection Hi as ->. apply Ha. eapply nth_error_In; eauto.
      * injection Hj as ->. apply AS, Ha. eapply nth_error_In; eauto.
      * apply (IH i j); auto.
Qed.
End Exact.
