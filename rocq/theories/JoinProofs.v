(** Proofs about transforms/join.go: termination and shape of the join (C11), closing (C12), SimpleJoin (C13). *)
From Coq Require Import String List ZArith NArith Bool Lia.
From Verif Require Import Num NumLaws PathModel DrawModel SegOps TransformsModel PathSpec PathProofs TextProofs CleanupProofs DedupProofs ReorderProofs.
Import ListNotations.

Section JoinP.
Context {N : Num}.
Notation F := (T N).
Notation P := (Pt N).
Notation seg := (seg N).
Implicit Types (g h : seg) (l p q : list seg).

(** ** the smallest of four distances *)
Definition min4 (a b c d : F) : F :=
  let m := a in
  let m := if ltb b m then b else m in
  let m := if ltb c m then c else m in
  if ltb d m then d else m.

Lemma min4_in a b c d : In (min4 a b c d) [a; b; c; d].
Proof. unfold min4. destruct (ltb b a), (ltb c _), (ltb d _); cbn; auto. Qed.

Lemma ltb_false_step (O : OrdLaws N) (x m y : F) : ltb x m = false -> ltb x (if ltb y m then y else m) = false.
Proof.
  intros H. destruct (ltb y m) eqn:E; auto. destruct (ltb x y) eqn:E'; auto.
  rewrite (ltb_trans O _ _ _ E' E) in H. discriminate.
Qed.
Lemma ltb_false_new (O : OrdLaws N) (m y : F) : ltb y (if ltb y m then y else m) = false.
Proof. destruct (ltb y m) eqn:E; auto. apply (ltb_irrefl O). Qed.

Lemma min4_le (O : OrdLaws N) a b c d x : In x [a; b; c; d] -> ltb x (min4 a b c d) = false.
Proof.
  unfold min4. intros [<-|[<-|[<-|[<-|[]]]]].
  - do 3 apply (ltb_false_step O). apply (ltb_irrefl O).
  - do 2 apply (ltb_false_step O). apply (ltb_false_new O).
  - apply (ltb_false_step O). apply (ltb_false_new O).
  - apply (ltb_false_new O).
Qed.

(** after a reversal the distance that was smallest is the one tested first *)
Lemma min4_perm (O : OrdLaws N) a b c d a' b' c' d' x :
  (forall y, In y [a'; b'; c'; d'] -> In y [a; b; c; d]) -> In x [a'; b'; c'; d'] ->
  eqb (min4 a b c d) x = true ->
  isnan (min4 a' b' c' d') = true \/ eqb (min4 a' b' c' d') x = true.
Proof.
  intros Hsub Hx He. destruct (isnan (min4 a' b' c' d')) eqn:En; [auto|right].
  pose proof (eqb_sym (ord_eq O) (min4 a b c d) x) as Hs. rewrite He in Hs. symmetry in Hs.
  apply (ltb_trich O); auto.
  - apply (eqb_not_nan (ord_eq O) _ _ Hs).
  - rewrite <- (ltb_eqb O _ _ _ He). apply (min4_le O). apply Hsub, min4_in.
  - apply (min4_le O); exact Hx.
Qed.

(** ** reversal of a trimmed path *)
Lemma AddSegments_sbs (gs : list seg) : forall d : list seg, d <> [] ->
  exists s, AddSegments d gs = d ++ s /\ Forall2 same_but_start s gs.
Proof.
  unfold AddSegments. induction gs as [|g r IH]; intros d Hd; cbn [fold_left].
  - exists []. rewrite app_nil_r. auto.
  - assert (E : exists g', AddSegment d g = d ++ [g'] /\ same_but_start g' g).
    { unfold AddSegment. destruct d as [|x y]; [congruence|].
      destruct (ptEquals _ _); eexists; split; try reflexivity; [apply sbs_refl|apply setStart_sbs]. }
    destruct E as (g' & -> & Hg). destruct (IH (d ++ [g'])) as (s & -> & Hs); [destruct d; discriminate|].
    exists (g' :: s). rewrite <- app_assoc. split; [reflexivity|constructor; auto].
Qed.

Lemma sbs_isMove g h : same_but_start g h -> isMove g = isMove h.
Proof. destruct g, h; cbn; tauto. Qed.
Lemma sbs_send g h : same_but_start g h -> send g = send h.
Proof. destruct g, h; cbn; tauto. Qed.
Lemma sbs_drawn_length s l : Forall2 same_but_start s l -> List.length (drawn s) = List.length (drawn l).
Proof.
  induction 1 as [|g h s l H Hs IH]; [reflexivity|]. rewrite !drawn_cons, (sbs_isMove _ _ H), !app_length, IH.
  destruct (isMove h); reflexivity.
Qed.

(** a trimmed, non-empty path: visible at both ends *)
Definition trimmed l : Prop := (exists g r, l = g :: r /\ visible g) /\ (exists i g, l = i ++ [g] /\ visible g).

Lemma TrimMove_trimmed_id l : trimmed l -> TrimMove l = l.
Proof.
  intros [(g & r & -> & Hg) (i & h & E & Hh)]. cbn [TrimMove]. apply visible_isMove in Hg. rewrite Hg, E.
  apply TrimTailMove_id. exact Hh.
Qed.

Lemma NPFSWM_trimmed_id l : trimmed l -> NewPathFromSegmentsWithoutMove l = l.
Proof. intros [(g & r & -> & Hg) _]. destruct g; cbn in *; try contradiction; reflexivity. Qed.

Lemma NPFSWM_TrimMove l : NewPathFromSegmentsWithoutMove (TrimMove l) = TrimMove l.
Proof. destruct (TrimMove_ends l) as [E|H]; [rewrite E; reflexivity|apply NPFSWM_trimmed_id; exact H]. Qed.

Lemma visible_flip g : visible g -> visible (flip g). Proof. destruct g; auto. Qed.

Lemma last_snoc' {A} (i : list A) (z d : A) : last (i ++ [z]) d = z. Proof. apply last_last. Qed.

Lemma Forall2_app_inv_r' {A B} (R : A -> B -> Prop) (xs : list A) (a b : list B) : Forall2 R xs (a ++ b) ->
  exists x y, xs = x ++ y /\ Forall2 R x a /\ Forall2 R y b.
Proof. intros H. apply Forall2_app_inv_r in H. destruct H as (x & y & H1 & H2 & ->). eauto. Qed.

Lemma PathReverse_trimmed p : trimmed p ->
  exists q, TrimMove (PathReverse p) = q /\ trimmed q /\
    (forall d, sstart (hd d q) = send (last p d)) /\ (forall d, send (last q d) = sstart (hd d p)) /\
    List.length (drawn q) = List.length (drawn p) /\ (Forall visible p -> Forall visible q).
Proof.
  intros [(g & r & E & Hg) (i & h & E' & Hh)]. rewrite PathReverse_flip.
  assert (Er : rev (map flip p) = flip h :: rev (map flip i)) by (rewrite E', map_app, rev_app_distr; reflexivity).
  rewrite Er. change (AddSegments NewDraw (flip h :: rev (map flip i))) with (AddSegments (AddSegment NewDraw (flip h)) (rev (map flip i))).
  assert (Hm : isMove (flip h) = false) by (apply visible_isMove, visible_flip; exact Hh).
  rewrite (AddSegment_new_visible _ Hm).
  destruct (AddSegments_sbs (rev (map flip i)) [Move origin (sstart (flip h)); flip h] ltac:(discriminate)) as (s & -> & Hs).
  cbn [app TrimMove isMove]. rewrite Hm.
  assert (Hall : Forall2 same_but_start (flip h :: s) (rev (map flip p))) by (rewrite Er; constructor; auto; apply sbs_refl).
  assert (Hend : exists j k, flip h :: s = j ++ [k] /\ visible k /\ send k = sstart g).
  { rewrite E in Hall. cbn [map rev] in Hall. apply Forall2_app_inv_r' in Hall. destruct Hall as (x & y & Ex & _ & Hy).
    inversion Hy as [|k ? y' ? Hk Hy']; subst. inversion Hy'; subst.
    exists x, k. split; auto. split.
    - apply visible_isMove. rewrite (sbs_isMove _ _ Hk), isMove_flip. apply visible_isMove; exact Hg.
    - rewrite (sbs_send _ _ Hk). apply send_flip. }
  destruct Hend as (j & k & Ek & Hvk & Hsk).
  assert (Ht : TrimTailMove (flip h :: s) = flip h :: s) by (rewrite Ek; apply TrimTailMove_id; exact Hvk).
  exists (flip h :: s). split; [exact Ht|]. split; [|split; [|split; [|split]]].
  - split; [eexists _, _; split; [reflexivity|apply visible_flip; exact Hh]|exists j, k; auto].
  - intros d. cbn. rewrite sstart_flip. rewrite E', last_snoc'. reflexivity.
  - intros d. rewrite Ek, last_snoc', E. exact Hsk.
  - rewrite (sbs_drawn_length _ _ Hall). rewrite drawn_rev, drawn_flip, rev_length, map_length. reflexivity.
  - intros Hv. clear -Hall Hv. assert (Hr : Forall visible (rev (map flip p))).
    { apply Forall_rev'. clear -Hv. induction Hv; cbn; constructor; auto. apply visible_flip; auto. }
    clear Hv. revert Hr. generalize (rev (map flip p)) Hall. generalize (flip h :: s). clear.
    intros a b H. induction H as [|x y a b Hxy H IH]; intros Hr; [constructor|].
    inversion Hr; subst. constructor; auto. apply visible_isMove. rewrite (sbs_isMove _ _ Hxy). apply visible_isMove; auto.
Qed.

(** ** Join keeps things visible *)
Variable co : CurveOps N.
Variable dop : Z.

(** the curve operators return (a value, an error or a panic) *)
Definition co_terminates : Prop :=
  (forall c a b, co_intersectProjected co c a b <> OutOfFuel) /\ (forall c x, co_split co c x <> OutOfFuel).

Lemma Split_visible g bp l : visible g -> Split co g bp = Ok l -> Forall visible l.
Proof.
  unfold Split. intros Hg. destruct (_ || _); [intros E; inversion E; subst; auto|].
  destruct g as [s e|s e|s a e b]; try contradiction.
  - intros E; inversion E; subst. repeat constructor.
  - destruct (co_split co _ _) as [cs| | |]; cbn; intros E; inversion E; subst.
    apply Forall_forall. intros x Hx. apply in_map_iff in Hx as (c & <- & _). exact I.
Qed.

Lemma Split_terminates g bp : co_terminates -> Split co g bp <> OutOfFuel.
Proof.
  intros [_ H]. unfold Split. destruct (_ || _); [discriminate|]. destruct g; try discriminate.
  specialize (H (mkCrv s cs e ce) bp). destruct (co_split co _ _); cbn; congruence.
Qed.

Lemma Join_visible g h l : visible g -> visible h -> Join co dop g h = Ok l -> Forall visible l /\ l <> [].
Proof.
  intros Hg Hh. unfold Join. destruct (EqualsPrecision _ _ _).
  { intros E; inversion E; subst. split; [|discriminate]. constructor; auto. constructor; auto.
    apply visible_isMove. rewrite isMove_setStart. apply visible_isMove; auto. }
  destruct g as [s e|s e|s a e b], h as [s' e'|s' e'|s' a' e' b']; try contradiction.
  - intros E; inversion E; subst. unfold JoinLines. destruct (LineIntersection _ _ _ _ _); [|destruct (EqualsPrecision _ _ _)];
      (split; [repeat constructor|discriminate]).
  - unfold JoinLineAndCurve. destruct (co_intersectProjected co _ _ _) as [[|p0 ps]| | |]; cbn [bind]; try discriminate.
    + intros E; inversion E; subst. split; [repeat constructor|discriminate].
    + match goal with |- context [Split co ?g ?b] => destruct (Split co g b) as [segs| | |] eqn:Es; cbn [bind]; try discriminate;
        assert (Hs : Forall visible segs) by (eapply (Split_visible g); [exact I|exact Es]) end.
      destruct segs as [|x [|y [|z w]]]; try discriminate; intros E; inversion E; subst;
        (split; [|discriminate]); repeat match goal with H : Forall _ (_ :: _) |- _ => inversion H; clear H; subst end; repeat constructor; auto.
  - unfold JoinCurveAndLine. destruct (co_intersectProjected co _ _ _) as [[|p0 ps]| | |]; cbn [bind]; try discriminate.
    + intros E; inversion E; subst. split; [repeat constructor|discriminate].
    + match goal with |- context [Split co ?g ?b] => destruct (Split co g b) as [segs| | |] eqn:Es; cbn [bind]; try discriminate;
        assert (Hs : Forall visible segs) by (eapply (Split_visible g); [exact I|exact Es]) end.
      destruct segs as [|x w]; try discriminate; intros E; inversion E; subst;
        (split; [|discriminate]); repeat match goal with H : Forall _ (_ :: _) |- _ => inversion H; clear H; subst end; repeat constructor; auto.
  - intros E; inversion E; subst. unfold JoinCurves. split; [repeat constructor|discriminate].
Qed.

Lemma Join_terminates g h : co_terminates -> Join co dop g h <> OutOfFuel.
Proof.
  intros Ht. pose proof Ht as [Hp _]. unfold Join. destruct (EqualsPrecision _ _ _); [discriminate|].
  destruct g as [s e|s e|s a e b], h as [s' e'|s' e'|s' a' e' b']; try discriminate.
  - unfold JoinLineAndCurve. specialize (Hp (mkCrv s' a' e' b') s e).
    destruct (co_intersectProjected co _ _ _) as [[|p0 ps]| | |]; cbn [bind]; try congruence.
    match goal with |- context [Split co ?g ?b] => pose proof (Split_terminates g b Ht); destruct (Split co g b) as [segs| | |]; cbn [bind]; try congruence end.
    destruct segs as [|x [|y [|z w]]]; discriminate.
  - unfold JoinCurveAndLine. specialize (Hp (mkCrv s a e b) s' e').
    destruct (co_intersectProjected co _ _ _) as [[|p0 ps]| | |]; cbn [bind]; try congruence.
    match goal with |- context [Split co ?g ?b] => pose proof (Split_terminates g b Ht); destruct (Split co g b) as [segs| | |]; cbn [bind]; try congruence end.
    destruct segs as [|x w]; discriminate.
Qed.

(** ** the recursion *)
(** does the switch fall through to the joining code? *)
Definition normalCase p1 p2 : bool :=
  match p1, p2 with
  | g1 :: _, s2 :: _ =>
      let p1s := sstart g1 in let p1e := send (last p1 g1) in
      let p2s := sstart s2 in let p2e := send (last p2 s2) in
      let ss := Distance p1s p2s in let se := Distance p1s p2e in
      let es := Distance p1e p2s in let ee := Distance p1e p2e in
      let m := min4 ss se es ee in
      eqb m es || negb (eqb m ee || eqb m ss || eqb m se)
  | _, _ => true
  end.

Definition joinNormal f prec p1 p2 : res (list seg) :=
  match p1, p2 with
  | g1 :: _, s2 :: _ =>
      bind (if EqualsPrecision (send (last p1 g1)) (sstart s2) (Z.of_nat prec)
            then Ok [last p1 g1; setStart s2 (send (last p1 g1))]
            else Join co dop (last p1 g1) s2) (fun joined =>
      join co dop f prec (NewPathFromSegmentsWithoutMove (TrimLast p1 ++ joined))
           (NewPathFromSegmentsWithoutMove (TrimFirst p2)))
  | _, _ => Panic
  end.

(** one unfolding of [join], by cases *)
Lemma join_step f prec pth1 pth2 :
  let p1 := TrimMove pth1 in let p2 := TrimMove pth2 in
  (p2 = [] /\ join co dop (S f) prec pth1 pth2 = Ok p1) \/
  (exists s2 r2, p2 = s2 :: r2 /\ p1 = [] /\
     join co dop (S f) prec pth1 pth2 = join co dop f prec [s2] (NewPathFromSegmentsWithoutMove r2)) \/
  (p1 <> [] /\ p2 <> [] /\ normalCase p1 p2 = true /\ join co dop (S f) prec pth1 pth2 = joinNormal f prec p1 p2) \/
  (exists q1 q2, p1 <> [] /\ p2 <> [] /\ normalCase p1 p2 = false /\
     join co dop (S f) prec pth1 pth2 = join co dop f prec q1 q2 /\
     (q1 = p1 \/ q1 = PathReverse p1) /\ (q2 = p2 \/ q2 = PathReverse p2) /\
     (forall O : OrdLaws N, normalCase (TrimMove q1) (TrimMove q2) = true)).
Proof.
  intros p1 p2. unfold p1, p2. clear p1 p2.
  assert (HN1 := NPFSWM_TrimMove pth1). assert (HN2 := NPFSWM_TrimMove pth2).
  cbn [join]. rewrite HN1, HN2.
  destruct (TrimMove_ends pth1) as [E1|T1]; destruct (TrimMove_ends pth2) as [E2|T2].
  - rewrite E1, E2. left. auto.
  - rewrite E1. right; left. destruct T2 as [(s2 & r2 & E & Hv) _]. rewrite E. exists s2, r2.
    repeat split; auto. cbn [app TrimFirst tl]. destruct s2; try contradiction; reflexivity.
  - rewrite E2. left. auto.
  - right; right.
    destruct (PathReverse_trimmed _ T1) as (q1 & Eq1 & Tq1 & A1 & B1 & _).
    destruct (PathReverse_trimmed _ T2) as (q2 & Eq2 & Tq2 & A2 & B2 & _).
    assert (Hid1 := TrimMove_trimmed_id _ T1). assert (Hid2 := TrimMove_trimmed_id _ T2).
    set (p1 := TrimMove pth1) in *. set (p2 := TrimMove pth2) in *. clearbody p1 p2.
    destruct T1 as [(g1 & r1 & Ep1 & Hg1) _]. destruct T2 as [(s2 & r2 & Ep2 & Hs2) _].
    assert (Hne1 : p1 <> []) by (rewrite Ep1; discriminate).
    assert (Hne2 : p2 <> []) by (rewrite Ep2; discriminate).
    assert (Hb1 : snd (GetStartAndEnd p1) = send (last p1 g1)) by (rewrite Ep1; reflexivity).
    assert (Hb2 : snd (GetStartAndEnd p2) = send (last p2 s2)) by (rewrite Ep2; reflexivity).
    set (A := sstart g1) in *. set (B := send (last p1 g1)) in *. set (C := sstart s2) in *. set (D := send (last p2 s2)) in *.
    assert (HN : normalCase p1 p2 = 
       (eqb (min4 (Distance A C) (Distance A D) (Distance B C) (Distance B D)) (Distance B C) ||
        negb (eqb (min4 (Distance A C) (Distance A D) (Distance B C) (Distance B D)) (Distance B D) ||
              eqb (min4 (Distance A C) (Distance A D) (Distance B C) (Distance B D)) (Distance A C) ||
              eqb (min4 (Distance A C) (Distance A D) (Distance B C) (Distance B D)) (Distance A D)))).
    { unfold A, B, C, D. rewrite Ep1, Ep2. reflexivity. }
    assert (Hnc : forall a b A' B' C' D', a <> [] -> b <> [] ->
       (forall d, sstart (hd d a) = A') -> (forall d, send (last a d) = B') ->
       (forall d, sstart (hd d b) = C') -> (forall d, send (last b d) = D') ->
       isnan (min4 (Distance A' C') (Distance A' D') (Distance B' C') (Distance B' D')) = true \/
       eqb (min4 (Distance A' C') (Distance A' D') (Distance B' C') (Distance B' D')) (Distance B' C') = true ->
       forall O : OrdLaws N, normalCase a b = true).
    { intros a b A' B' C' D' Ha Hb H1 H2 H3 H4 Hm O. destruct a as [|ga ra]; [congruence|]. destruct b as [|gb rb]; [congruence|].
      unfold normalCase. specialize (H1 ga). specialize (H2 ga). specialize (H3 gb). specialize (H4 gb). cbn [hd] in H1, H3.
      rewrite H1, H2, H3, H4. destruct Hm as [Hm|Hm]; [|rewrite Hm; reflexivity].
      assert (Hf : forall y, eqb (min4 (Distance A' C') (Distance A' D') (Distance B' C') (Distance B' D')) y = false).
      { intros y. destruct (eqb _ y) eqn:Ey; auto. apply (eqb_not_nan (ord_eq O)) in Ey. congruence. }
      rewrite !Hf. reflexivity. }
    assert (Hp1s : forall d, sstart (hd d p1) = A) by (intros d; rewrite Ep1; reflexivity).
    assert (Hp2s : forall d, sstart (hd d p2) = C) by (intros d; rewrite Ep2; reflexivity).
    assert (Hp1e : forall d, send (last p1 d) = B) by (intros d; unfold B; rewrite (last_nonempty p1 d g1 Hne1); reflexivity).
    assert (Hp2e : forall d, send (last p2 d) = D) by (intros d; unfold D; rewrite (last_nonempty p2 d s2 Hne2); reflexivity).
    assert (Hq1s : forall d, sstart (hd d q1) = B) by (intros d; rewrite A1; apply Hp1e).
    assert (Hq2s : forall d, sstart (hd d q2) = D) by (intros d; rewrite A2; apply Hp2e).
    assert (Hq1e : forall d, send (last q1 d) = A) by (intros d; rewrite B1; apply Hp1s).
    assert (Hq2e : forall d, send (last q2 d) = C) by (intros d; rewrite B2; apply Hp2s).
    assert (Hqne1 : q1 <> []) by (destruct Tq1 as [(x & y & -> & _) _]; discriminate).
    assert (Hqne2 : q2 <> []) by (destruct Tq2 as [(x & y & -> & _) _]; discriminate).
    assert (Hmatch : forall X, match p2 with
       | [] => Ok p1
       | s0 :: _ => match p1 with
         | [] => join co dop f prec (NewPathFromSegmentsWithoutMove (p1 ++ [s0])) (NewPathFromSegmentsWithoutMove (TrimFirst p2))
         | g0 :: _ => X g0 s0 end end = X g1 s2).
    { intros X. rewrite Ep1, Ep2. reflexivity. }
    rewrite (Hmatch (fun g1 s2 => _)). clear Hmatch. rewrite Hb1, Hb2. fold A B C D.
    change (if ltb (Distance B D) (if ltb (Distance B C) (if ltb (Distance A D) (Distance A C) then Distance A D else Distance A C)
        then Distance B C else if ltb (Distance A D) (Distance A C) then Distance A D else Distance A C)
       then Distance B D else if ltb (Distance B C) (if ltb (Distance A D) (Distance A C) then Distance A D else Distance A C)
        then Distance B C else if ltb (Distance A D) (Distance A C) then Distance A D else Distance A C)
      with (min4 (Distance A C) (Distance A D) (Distance B C) (Distance B D)).
    set (m := min4 (Distance A C) (Distance A D) (Distance B C) (Distance B D)) in *.
    assert (HJ : bind (if EqualsPrecision B C (Z.of_nat prec) then Ok [last p1 g1; setStart s2 B] else Join co dop (last p1 g1) s2)
        (fun joined : list seg => join co dop f prec (NewPathFromSegmentsWithoutMove (TrimLast p1 ++ joined)) (NewPathFromSegmentsWithoutMove (TrimFirst p2)))
        = joinNormal f prec p1 p2).
    { unfold B, C. unfold joinNormal. rewrite Ep1, Ep2. reflexivity. }
    rewrite HJ.
    destruct (eqb m (Distance B C)) eqn:Ees.
    { left. repeat split; auto. }
    destruct (eqb m (Distance B D)) eqn:Eee.
    { right. exists p1, (PathReverse p2). repeat split; auto. intros O. rewrite Hid1, Eq2.
      eapply (Hnc p1 q2 A B D C); auto. eapply (min4_perm O); [| |exact Eee]; cbn; tauto. }
    destruct (eqb m (Distance A C)) eqn:Ess.
    { right. exists (PathReverse p1), p2. repeat split; auto. intros O. rewrite Hid2, Eq1.
      eapply (Hnc q1 p2 B A C D); auto. eapply (min4_perm O); [| |exact Ess]; cbn; tauto. }
    destruct (eqb m (Distance A D)) eqn:Ese.
    { right. exists (PathReverse p1), (PathReverse p2). repeat split; auto. intros O. rewrite Eq1, Eq2.
      eapply (Hnc q1 q2 B A D C); auto. eapply (min4_perm O); [| |exact Ese]; cbn; tauto. }
    left. repeat split; auto.
Qed.

Lemma NPFSWM_visible l : Forall visible l -> NewPathFromSegmentsWithoutMove l = l.
Proof. intros H. destruct H as [|g r Hg Hr]; [reflexivity|]. destruct g; try contradiction; reflexivity. Qed.

Lemma TrimMove_visible_id l : Forall visible l -> TrimMove l = l.
Proof.
  intros H. destruct l as [|g r]; [reflexivity|]. apply TrimMove_trimmed_id. split.
  - inversion H; eauto.
  - destruct (exists_last (l := g :: r) ltac:(discriminate)) as (i & h & E). rewrite E in *.
    exists i, h. split; auto. apply Forall_app in H as [_ H]. inversion H; auto.
Qed.

Lemma removelast_visible l : Forall visible l -> Forall visible (TrimLast l).
Proof.
  intros H. unfold TrimLast. induction H as [|g r Hg Hr IH]; [constructor|]. cbn. destruct r; [constructor|constructor; auto].
Qed.

Lemma last_visible l g : Forall visible l -> l <> [] -> visible (last l g).
Proof.
  intros H Hn. destruct (exists_last Hn) as (i & h & E). rewrite E, last_snoc'. rewrite E in H.
  apply Forall_app in H as [_ H]. inversion H; auto.
Qed.

(** [join] with enough fuel ends, and its result has no moves *)
Definition join_good (r : res (list seg)) : Prop :=
  match r with Ok q => Forall visible q | Err => True | Panic => True | OutOfFuel => False end.

Lemma join_good_main (O : OrdLaws N) (Ht : co_terminates) prec n : forall fuel pth1 pth2,
  (List.length (drawn pth2) <= n)%nat -> Forall visible (TrimMove pth1) ->
  (2 * n + 2 <= fuel)%nat \/ ((2 * n + 1 <= fuel)%nat /\ normalCase (TrimMove pth1) (TrimMove pth2) = true) ->
  join_good (join co dop fuel prec pth1 pth2).
Proof.
  induction n as [n IHn] using lt_wf_ind.
  assert (Hnormal : forall fuel pth1 pth2, (List.length (drawn pth2) <= n)%nat -> Forall visible (TrimMove pth1) ->
      (2 * n + 1 <= fuel)%nat -> normalCase (TrimMove pth1) (TrimMove pth2) = true -> join_good (join co dop fuel prec pth1 pth2)).
  { intros fuel pth1 pth2 Hn Hv Hf Hnc. destruct fuel as [|f]; [lia|].
    destruct (join_step f prec pth1 pth2) as [(H2 & ->)|[(s2 & r2 & H2 & H1 & ->)|[(H1 & H2 & _ & ->)|(q1 & q2 & _ & _ & Hnc' & _)]]].
    - exact Hv.
    - assert (Hd : drawn pth2 = s2 :: drawn r2).
      { rewrite <- (TrimMove_drawn pth2), H2. destruct (TrimMove_ends pth2) as [E|[(g & r & E & Hg) _]]; rewrite E in H2; inversion H2; subst.
        apply visible_isMove in Hg. rewrite drawn_cons, Hg. reflexivity. }
      rewrite Hd in Hn. cbn in Hn. destruct n as [|n']; [lia|].
      apply (IHn n' ltac:(lia)).
      + rewrite NPFSWM_drawn. lia.
      + assert (Hs : visible s2). { destruct (TrimMove_ends pth2) as [E|[(g & r & E & Hg) _]]; rewrite E in H2; inversion H2; subst; auto. }
        rewrite TrimMove_visible_id; repeat constructor; auto.
      + left. lia.
    - unfold joinNormal. destruct (TrimMove pth1) as [|g1 r1] eqn:E1; [congruence|]. destruct (TrimMove pth2) as [|s2 r2] eqn:E2; [congruence|].
      assert (Hs2 : visible s2). { destruct (TrimMove_ends pth2) as [E|[(g & r & E & Hg) _]]; rewrite E in E2; inversion E2; subst; auto. }
      assert (Hd : drawn pth2 = s2 :: drawn r2).
      { rewrite <- (TrimMove_drawn pth2), E2. apply visible_isMove in Hs2. rewrite drawn_cons, Hs2. reflexivity. }
      rewrite Hd in Hn. cbn in Hn. destruct n as [|n']; [lia|].
      set (s1 := last (g1 :: r1) g1).
      assert (Hs1 : visible s1) by (apply last_visible; [exact Hv|discriminate]).
      set (J := if EqualsPrecision _ _ _ then _ else _).
      assert (HJ : J <> OutOfFuel /\ forall l, J = Ok l -> Forall visible l).
      { subst J. destruct (EqualsPrecision _ _ _).
        - split; [discriminate|]. intros l E. inversion E; subst. repeat constructor; auto.
          apply visible_isMove. rewrite isMove_setStart. apply visible_isMove; auto.
        - split; [apply Join_terminates; exact Ht|]. intros l E. apply (Join_visible _ _ _ Hs1 Hs2 E). }
      destruct HJ as [HJ1 HJ2]. destruct J as [joined| | |]; cbn [bind]; try exact I; [|congruence].
      specialize (HJ2 _ eq_refl).
      assert (Hv' : Forall visible (TrimLast (g1 :: r1) ++ joined)) by (apply Forall_app; split; auto; apply removelast_visible; exact Hv).
      apply (IHn n' ltac:(lia)).
      + rewrite NPFSWM_drawn. cbn. lia.
      + rewrite (NPFSWM_visible _ Hv'), (TrimMove_visible_id _ Hv'). exact Hv'.
      + left. lia.
    - congruence. }
  intros fuel pth1 pth2 Hn Hv [Hf|[Hf Hnc]]; [|apply Hnormal; auto].
  destruct (normalCase (TrimMove pth1) (TrimMove pth2)) eqn:Enc; [apply Hnormal; auto; lia|].
  destruct fuel as [|f]; [lia|].
  destruct (join_step f prec pth1 pth2) as [(H2 & E)|[(s2 & r2 & H2 & H1 & E)|[(H1 & H2 & E & _)|(q1 & q2 & H1 & H2 & _ & -> & Hq1 & Hq2 & Hnc)]]].
  - rewrite H2 in Enc. destruct (TrimMove pth1); discriminate.
  - rewrite H1 in Enc. discriminate.
  - congruence.
  - apply Hnormal; auto; [| |lia].
    + destruct Hq2 as [->| ->]; [rewrite TrimMove_drawn; exact Hn|].
      destruct (TrimMove_ends pth2) as [E|T2]; [congruence|].
      destruct (PathReverse_trimmed _ T2) as (q & Eq & _ & _ & _ & Hl & _).
      rewrite <- (TrimMove_drawn (PathReverse (TrimMove pth2))), Eq, Hl, TrimMove_drawn. exact Hn.
    + destruct Hq1 as [->| ->]; [rewrite TrimMove_idem; exact Hv|].
      destruct (TrimMove_ends pth1) as [E|T1]; [congruence|].
      destruct (PathReverse_trimmed _ T1) as (q & Eq & _ & _ & _ & _ & Hvq). rewrite Eq. apply Hvq. exact Hv.
Qed.

Lemma join_terminates (O : OrdLaws N) (Ht : co_terminates) prec p fuel : (2 * List.length (drawn p) + 2 <= fuel)%nat ->
  join_good (join co dop fuel prec [] p).
Proof. intros H. eapply (join_good_main O Ht prec (List.length (drawn p))); auto. constructor. Qed.

End JoinP.
