(** Proofs about transforms/dedup.go (C08) and transforms/reverse.go (C09). *)
From Coq Require Import String List ZArith NArith Bool Lia.
From Verif Require Import Num NumLaws PathModel DrawModel SegOps SvgParse TransformsModel PathSpec PathProofs TextProofs CleanupProofs.
Import ListNotations.

Section Dedup.
Context {N : Num}.
Notation P := (Pt N).
Notation seg := (seg N).
Implicit Types (g h : seg) (l st p q : list seg).

Lemma Reverse_flip g : Reverse g = flip g.
Proof. destruct g; reflexivity. Qed.

(** ** specification: removing back-and-forth pairs *)
(** [reduces n a b]: [b] arises from [a] by repeatedly deleting two adjacent strokes the second of which is, to
    [n] decimals in every point, the first one drawn backwards *)
Inductive reduces (n : nat) : list seg -> list seg -> Prop :=
| red_refl a : reduces n a a
| red_step a x g h y b : a = x ++ g :: h :: y -> same_seg_dec n h (flip g) ->
    reduces n (x ++ y) b -> reduces n a b.

Lemma reduces_trans n a b c : reduces n a b -> reduces n b c -> reduces n a c.
Proof. intros H1 H2. induction H1; auto. eapply red_step; eauto. Qed.

Lemma reduces_app_r n a b y : reduces n a b -> reduces n (a ++ y) (b ++ y).
Proof.
  intros H. induction H as [a|a x g h z b E Hs H IH]; [constructor|].
  subst a. eapply (red_step n _ x g h (z ++ y)); auto.
  - rewrite <- app_assoc. reflexivity.
  - rewrite app_assoc. exact IH.
Qed.

Lemma reduces_pop n a x g h : reduces n a (x ++ [g; h]) -> same_seg_dec n h (flip g) -> reduces n a x.
Proof.
  intros H Hs. eapply reduces_trans; [exact H|]. eapply (red_step n _ x g h []); auto.
  rewrite app_nil_r. constructor.
Qed.

Lemma reduces_length n a b : reduces n a b -> exists k, List.length a = (List.length b + 2 * k)%nat.
Proof.
  induction 1 as [a|a x g h y b E Hs H (k & IH)]; [exists 0%nat; lia|].
  exists (S k). subst a. rewrite app_length in *. cbn. lia.
Qed.

(** every remaining stroke is an original one, in order *)
Inductive sublist : list seg -> list seg -> Prop :=
| sub_nil : sublist [] []
| sub_skip a b g : sublist a b -> sublist a (g :: b)
| sub_take a b g : sublist a b -> sublist (g :: a) (g :: b).

Lemma sublist_refl a : sublist a a.
Proof. induction a; [constructor|apply sub_take; auto]. Qed.
Lemma sublist_trans a b c : sublist a b -> sublist b c -> sublist a c.
Proof.
  intros H1 H2. revert a H1. induction H2 as [|b c g H IH|b c g H IH]; intros a H1.
  - exact H1.
  - apply sub_skip. auto.
  - inversion H1; subst; [apply sub_skip|apply sub_take]; auto.
Qed.
Lemma sublist_app_l a b x : sublist a b -> sublist (x ++ a) (x ++ b).
Proof. intros H. induction x; cbn; [exact H|apply sub_take; auto]. Qed.
Lemma reduces_sublist n a b : reduces n a b -> sublist b a.
Proof.
  induction 1 as [a|a x g h y b E Hs H IH]; [apply sublist_refl|].
  subst a. eapply sublist_trans; [exact IH|]. apply sublist_app_l. apply sub_skip, sub_skip, sublist_refl.
Qed.

(** ** the loop *)
Lemma dedup_move_not_pair prec g h : isMove g = false -> isMove h = true ->
  String.eqb (UniqueString prec g) (UniqueString prec (Reverse h)) = false.
Proof. destruct g, h; try discriminate; reflexivity. Qed.

(** a bottom move is never popped, so the loop does not panic *)
Lemma dedup_loop_spec prec l : forall st (base : list seg),
  (exists st' s e, st = st' ++ [Move s e]) ->
  reduces prec base (drawn (rev st)) ->
  exists q, dedup_loop prec st l = Ok q /\ reduces prec (base ++ drawn l) (drawn q) /\
            (exists s e q', q = Move s e :: q').
Proof.
  induction l as [|cur r IH]; intros st base (st' & s & e & Est) Hred.
  - exists (rev st). split; [reflexivity|]. split; [rewrite app_nil_r; exact Hred|].
    subst st. rewrite rev_app_distr. cbn. eauto.
  - cbn [dedup_loop].
    assert (Hpush : forall m, isMove m = isMove cur -> (isMove m = false -> m = cur) ->
              exists q, dedup_loop prec (m :: st) r = Ok q /\ reduces prec (base ++ drawn (cur :: r)) (drawn q) /\
                        (exists s e q', q = Move s e :: q')).
    { intros m Hm He. destruct (IH (m :: st) (base ++ drawn [cur])) as (q & E & Hq & Hh).
      - exists (m :: st'), s, e. rewrite Est. reflexivity.
      - cbn [rev]. rewrite drawn_app. 
        assert (Ed : drawn [m] = drawn [cur]).
        { destruct (isMove m) eqn:Em; rewrite !drawn_cons, Em, <- Hm; auto.
          rewrite (He eq_refl). auto. }
        rewrite Ed. apply reduces_app_r. exact Hred.
      - exists q. split; auto. split; auto. rewrite <- app_assoc, <- drawn_app in Hq. exact Hq. }
    destruct st as [|prev st0]; [destruct st'; discriminate|].
    destruct (isMove cur) eqn:Ec.
    + assert (Edr : drawn (cur :: r) = drawn r) by (rewrite drawn_cons, Ec; reflexivity).
      destruct (isMove prev) eqn:Ep.
      * rewrite Edr. apply IH.
        -- destruct st' as [|x st'']; cbn in Est; inversion Est; subst.
           ++ exists [], (sstart (Move s e)), (send cur). reflexivity.
           ++ exists (Move (sstart x) (send cur) :: st''), s, e. reflexivity.
        -- cbn [rev] in *. rewrite drawn_app in *. rewrite drawn_cons, Ep in Hred. exact Hred.
      * destruct (String.eqb _ _).
        -- rewrite Edr. apply IH; auto. exists st', s, e. exact Est.
        -- apply Hpush; congruence.
    + destruct (String.eqb (UniqueString prec cur) (UniqueString prec (Reverse prev))) eqn:Eu.
      * assert (Ep : isMove prev = false).
        { destruct (isMove prev) eqn:Ep; auto. rewrite (dedup_move_not_pair prec _ _ Ec Ep) in Eu. discriminate. }
        destruct st' as [|x st'']; cbn in Est; inversion Est; subst; [discriminate|].
        apply String.eqb_eq in Eu. apply UniqueString_same in Eu. rewrite Reverse_flip in Eu.
        destruct (IH (st'' ++ [Move s e]) (base ++ [cur])) as (q & E & Hq & Hh).
        -- eauto.
        -- cbn [rev] in Hred. rewrite drawn_app, drawn_cons, Ep in Hred. cbn [app] in Hred.
           eapply reduces_pop; [|exact Eu].
           replace (drawn (rev (st'' ++ [Move s e])) ++ [x; cur]) with ((drawn (rev (st'' ++ [Move s e])) ++ [x]) ++ [cur])
             by (rewrite <- app_assoc; reflexivity).
           apply reduces_app_r. exact Hred.
        -- exists q. split; auto. split; auto. rewrite drawn_cons, Ec. rewrite <- app_assoc in Hq. exact Hq.
      * apply Hpush; congruence.
Qed.

Definition head_move l : Prop := match l with [] => True | g :: _ => isMove g = true end.

Lemma NPFS_head_move l : head_move (NewPathFromSegments l).
Proof.
  rewrite NPFS_eq. destruct l as [|g r]; [exact I|]. cbn [HeadMove].
  destruct (isMove g) eqn:E.
  - destruct g; try discriminate. cbn. destruct (_ || _); reflexivity.
  - cbn. destruct (_ || _); reflexivity.
Qed.

Lemma dedupOnce_spec prec p : head_move p ->
  exists q, dedupOnce prec p = Ok q /\ reduces prec (drawn p) (drawn q) /\ head_move q.
Proof.
  intros Hh. destruct p as [|g [|h r]].
  - exists []. repeat split; auto. constructor.
  - exists [g]. repeat split; auto. constructor.
  - cbn [dedupOnce]. cbn in Hh. destruct g as [s e| |]; try discriminate.
    destruct (dedup_loop_spec prec (h :: r) [Move s e] []) as (q & -> & Hq & Hm).
    + exists [], s, e. reflexivity.
    + constructor.
    + exists (NewPathFromSegments q). cbn [bind]. split; auto. split.
      * rewrite NPFS_drawn. exact Hq.
      * apply NPFS_head_move.
Qed.

Lemma Dedup_spec prec p : head_move p ->
  exists q1 q, Dedup prec p = Ok q /\ reduces prec (drawn p) (drawn q1) /\
    Forall2 (realigned prec) (drawn (filter (fun g => negb (hasNaNEnd g)) q1)) (drawn q).
Proof.
  intros Hh. destruct (dedupOnce_spec prec p Hh) as (a & Ea & Ra & Ha).
  destruct (dedupOnce_spec prec a Ha) as (b & Eb & Rb & Hb).
  exists b, (Cleanup prec b). unfold Dedup. rewrite Ea. cbn [bind]. rewrite Eb. cbn [bind].
  split; auto. split; [eapply reduces_trans; eauto|]. apply Cleanup_drawn.
Qed.

(** NaN-free ends are preserved by the loop, hence by Dedup, whose result is then well formed *)
Lemma Forall_rev' {A} (Q : A -> Prop) xs : Forall Q xs -> Forall Q (rev xs).
Proof. intros H. apply Forall_forall. intros x Hx. apply in_rev in Hx. rewrite Forall_forall in H. auto. Qed.

Lemma dedup_loop_nan_free prec l : forall st q, Forall nan_free_ends st -> Forall nan_free_ends l ->
  dedup_loop prec st l = Ok q -> Forall nan_free_ends q.
Proof.
  induction l as [|c r IH]; intros st q Hs Hl; cbn [dedup_loop].
  - intros E; inversion E; subst. apply Forall_rev'; auto.
  - inversion Hl as [|? ? Hc Hr]; subst. destruct st as [|p st']; [discriminate|].
    inversion Hs as [|? ? Hp Hs']; subst.
    destruct (isMove c).
    + destruct (isMove p).
      * apply IH; auto. constructor; auto. split; [apply Hp|apply Hc].
      * destruct (String.eqb _ _); apply IH; auto.
    + destruct (String.eqb _ _); apply IH; auto.
Qed.

Lemma NPFS_nan_free (L : EqLaws N) l : Forall nan_free_ends l -> Forall nan_free_ends (NewPathFromSegments l).
Proof.
  intros H. rewrite NPFS_eq. apply (FixHeadMove_nan_free L). destruct l as [|g r]; [constructor|].
  cbn [HeadMove]. destruct (isMove g); auto. constructor; auto. inversion H as [|? ? Hg Hr]; subst.
  split; [|apply Hg]. cbn [sstart]. unfold NewPoint, nan_free_pt, norm0; cbn.
  split; destruct (eqb _ _); apply (zero_not_nan L).
Qed.

Lemma dedupOnce_nan_free (L : EqLaws N) prec p q : Forall nan_free_ends p -> dedupOnce prec p = Ok q -> Forall nan_free_ends q.
Proof.
  intros H. destruct p as [|g [|h r]]; cbn [dedupOnce]; try (intros E; inversion E; subst; auto; fail).
  inversion H as [|? ? Hg Hr]; subst.
  destruct (dedup_loop prec [g] (h :: r)) eqn:E; cbn [bind]; intros E'; inversion E'; subst.
  apply (NPFS_nan_free L). eapply dedup_loop_nan_free; [| |exact E]; auto.
Qed.

Lemma dedup_loop_nonempty prec l st q : (exists st' s e, st = st' ++ [Move s e]) ->
  dedup_loop prec st l = Ok q -> q <> [].
Proof.
  intros Hst E. destruct (dedup_loop_spec prec l st (drawn (rev st)) Hst (red_refl _ _)) as (q' & E' & _ & (s & e & t & ->)).
  rewrite E in E'. inversion E'. discriminate.
Qed.

Lemma dedupOnce_nonempty prec p q : head_move p -> p <> [] -> dedupOnce prec p = Ok q -> q <> [].
Proof.
  intros Hh Hp. destruct p as [|g [|h r]]; cbn [dedupOnce]; try congruence; try (intros E; inversion E; subst; discriminate).
  cbn in Hh. destruct g as [s e| |]; try discriminate.
  destruct (dedup_loop prec [Move s e] (h :: r)) as [t| | |] eqn:E; cbn [bind]; intros E'; inversion E'; subst.
  assert (t <> []) by (eapply dedup_loop_nonempty; [exists [], s, e; reflexivity|exact E]).
  pose proof (NPFS_origin t H) as (a & b & c & Ho & _). congruence.
Qed.

Lemma Dedup_wf (L : EqLaws N) prec p q : head_move p -> p <> [] -> Forall nan_free_ends p -> Dedup prec p = Ok q ->
  starts_with_origin_move q /\ connected q /\ no_double_move q /\ Forall nan_free_ends q.
Proof.
  intros Hh Hp Hn E. destruct (dedupOnce_spec prec p Hh) as (a & Ea & Ra & Ha).
  destruct (dedupOnce_spec prec a Ha) as (b & Eb & Rb & Hb).
  unfold Dedup in E. rewrite Ea in E. cbn [bind] in E. rewrite Eb in E. cbn [bind] in E. inversion E; subst.
  pose proof (dedupOnce_nan_free L _ _ _ Hn Ea) as Na. pose proof (dedupOnce_nan_free L _ _ _ Na Eb) as Nb.
  assert (Ha' : a <> []) by exact (dedupOnce_nonempty _ _ _ Hh Hp Ea).
  assert (H : b <> []) by exact (dedupOnce_nonempty _ _ _ Ha Ha' Eb).
  destruct (Cleanup_wf L prec b H) as (H1 & H2 & H3).
  { eapply Forall_impl; [|exact Nb]. apply nan_free_hasNaN. }
  repeat split; auto. apply Cleanup_nan_free; auto.
Qed.

(** ** C09 *)
Lemma same_place_sym (L : EqLaws N) (a b : P) : same_place a b -> same_place b a.
Proof. intros [->|[H1 H2]]; [left; reflexivity|right]. rewrite (eqb_sym L (px b)), (eqb_sym L (py b)). auto. Qed.

Lemma drawn_flip l : drawn (map flip l) = map flip (drawn l).
Proof. induction l as [|[] r IH]; cbn; auto; f_equal; auto. Qed.

Lemma sstart_flip g : sstart (flip g) = send g. Proof. destruct g; reflexivity. Qed.
Lemma send_flip g : send (flip g) = sstart g. Proof. destruct g; reflexivity. Qed.
Lemma flip_flip g : flip (flip g) = g. Proof. destruct g; reflexivity. Qed.
Lemma isMove_flip g : isMove (flip g) = isMove g. Proof. destruct g; reflexivity. Qed.

Lemma flip_chain (L : EqLaws N) l : forall c, chain c l -> connected (rev (map flip l)) /\
   (l <> [] -> same_place c (pen c (rev (map flip l))) ).
Proof.
  induction l as [|g r IH]; intros c H.
  - split; [exact I|congruence].
  - inversion H as [|? ? ? Hs Hr]; subst. destruct (IH _ Hr) as [Hc Hp].
    cbn [map rev]. split.
    + destruct r as [|h t].
      * cbn. constructor; [left; reflexivity|constructor].
      * assert (Hne : rev (map flip (h :: t)) <> []).
        { intros E. apply (f_equal (@rev _)) in E. rewrite rev_involutive in E. discriminate. }
        set (w := rev (map flip (h :: t))) in *.
        assert (Hp' := Hp ltac:(discriminate)).
        destruct w as [|a w']; [congruence|]. cbn [connected app] in *.
        change (chain (sstart a) ((a :: w') ++ [flip g])). apply chain_snoc. split; [exact Hc|].
        rewrite sstart_flip. apply (same_place_sym L). rewrite (pen_last _ _ (flip g) Hne) in Hp'.
        rewrite (pen_last _ _ (flip g) Hne). exact Hp'.
    + intros _. rewrite pen_app. cbn. rewrite send_flip. exact Hs.
Qed.

Lemma AddSegments_connected (gs : list seg) : forall d : list seg, d <> [] -> chain (pen origin d) gs -> AddSegments d gs = d ++ gs.
Proof.
  unfold AddSegments. induction gs as [|g r IH]; intros d Hd H; cbn [fold_left]; [symmetry; apply app_nil_r|].
  inversion H as [|? ? ? Hs Hr]; subst. rewrite (AddSegment_connected d g Hd Hs).
  rewrite IH.
  - rewrite <- app_assoc. reflexivity.
  - destruct d; discriminate.
  - rewrite pen_app. exact Hr.
Qed.

(** drawing a connected list of segments afresh *)
Lemma redraw_drawn l : connected l -> drawn (AddSegments NewDraw l) = drawn l.
Proof.
  intros H. destruct l as [|g r]; [reflexivity|]. apply connected_cons in H.
  change (AddSegments NewDraw (g :: r)) with (AddSegments (AddSegment NewDraw g) r).
  destruct (isMove g) eqn:E.
  - destruct (AddSegment_new_move g E) as ((s & e & b & Hq & _) & Hpen & Hdr).
    rewrite AddSegments_connected; [|rewrite Hq; discriminate|rewrite Hpen; exact H].
    rewrite drawn_app, Hdr, drawn_cons, E. reflexivity.
  - rewrite (AddSegment_new_visible g E). rewrite AddSegments_connected; [|discriminate|exact H].
    cbn. destruct g; try discriminate; reflexivity.
Qed.

Lemma PathReverse_flip p : PathReverse p = AddSegments NewDraw (rev (map flip p)).
Proof.
  unfold PathReverse. rewrite map_rev. reflexivity.
Qed.

Lemma chain_connected l : forall c, chain c l -> connected l.
Proof. intros c H. inversion H; subst; [exact I|]. apply connected_cons. assumption. Qed.

Lemma connected_chain l : connected l -> exists c, chain c l.
Proof. destruct l as [|g r]; [exists origin; constructor|]. intros H. exists (sstart g). exact H. Qed.

Lemma PathReverse_drawn (L : EqLaws N) p : connected p ->
  drawn (PathReverse p) = rev (map flip (drawn p)).
Proof.
  intros H. destruct (connected_chain p H) as (c & Hc).
  rewrite PathReverse_flip, redraw_drawn.
  - rewrite drawn_rev, drawn_flip. reflexivity.
  - apply (flip_chain L _ _ Hc).
Qed.

Lemma PathReverse_connected p : chain origin (PathReverse p).
Proof. unfold PathReverse. destruct (AddSegments_extends NewDraw (map Reverse (rev p))) as (s & -> & H). exact H. Qed.

Lemma PathReverse_twice (L : EqLaws N) p : connected p -> drawn (PathReverse (PathReverse p)) = drawn p.
Proof.
  intros H. rewrite (PathReverse_drawn L); [|eapply chain_connected, PathReverse_connected].
  rewrite (PathReverse_drawn L p H). rewrite map_rev, rev_involutive, map_map.
  rewrite <- (map_id (drawn p)) at 2. apply map_ext. intros g. apply flip_flip.
Qed.

End Dedup.
