(** Proofs about transforms/cleanup.go (property C07). *)
From Coq Require Import String List ZArith Bool Lia.
From Verif Require Import Num NumLaws PathModel DrawModel SegOps TransformsModel PathSpec PathProofs.
Import ListNotations.

Section Cleanup.
Context {N : Num}.
Notation seg := (seg N).
Notation P := (Pt N).
Implicit Types (g h : seg) (l p : list seg) (c : P).

Lemma connected_cons g l : connected (g :: l) <-> chain (send g) l.
Proof.
  cbn. split; intros H.
  - inversion H; auto.
  - constructor; auto. apply same_place_refl.
Qed.

Lemma FixHeadMove_connected l : connected l -> connected (FixHeadMove l).
Proof.
  destruct l as [|g r]; [auto|]. intros H. apply connected_cons in H.
  destruct g as [s e|s e|s a e b]; cbn [FixHeadMove]; try (apply connected_cons; exact H).
  destruct (_ || _); apply connected_cons; exact H.
Qed.

Lemma HeadMove_connected l : connected l -> connected (HeadMove l).
Proof.
  destruct l as [|g r]; [auto|]. intros H. cbn [HeadMove].
  destruct (isMove g); [exact H|]. apply connected_cons. exact H.
Qed.

Lemma NPFS_connected l : connected l -> connected (NewPathFromSegments l).
Proof. intros H. rewrite NPFS_eq. apply FixHeadMove_connected, HeadMove_connected, H. Qed.

(** merging *)
Lemma merge_loop_drawn l : forall g, drawn (merge_loop g l) = drawn (g :: l).
Proof.
  induction l as [|s r IH]; intros g; [reflexivity|]. cbn [merge_loop].
  destruct (isMove s && isMove g) eqn:E.
  - apply andb_prop in E as [E1 E2]. destruct s, g; try discriminate. rewrite IH. reflexivity.
  - rewrite (drawn_cons g (merge_loop s r)), IH, (drawn_cons g (s :: r)). reflexivity.
Qed.
Lemma mergeMoves_drawn l : drawn (mergeMoves l) = drawn l.
Proof. destruct l; [reflexivity|apply merge_loop_drawn]. Qed.

Lemma merge_loop_ndm l : forall g, no_double_move (merge_loop g l) /\
  exists h r, merge_loop g l = h :: r /\ isMove h = isMove g /\ sstart h = sstart g.
Proof.
  induction l as [|s r IH]; intros g; cbn [merge_loop].
  - split; [cbn; destruct g; auto|eauto 10].
  - destruct (isMove s && isMove g) eqn:E.
    + apply andb_prop in E as [E1 E2]. destruct (IH (Move (sstart g) (send s))) as [H1 (h & t & Eh & H2 & H3)].
      rewrite Eh in *. split; [exact H1|]. exists h, t. cbn in H2, H3. rewrite H2, E2. auto.
    + destruct (IH s) as [H1 (h & t & Eh & H2 & H3)]. rewrite Eh in *. split; [|do 2 eexists; eauto].
      split; [|exact H1]. destruct g; auto. destruct h; auto. cbn in H2. rewrite <- H2 in E. discriminate.
Qed.

Lemma merge_loop_chain l : forall c g, chain c (g :: l) -> chain c (merge_loop g l).
Proof.
  induction l as [|s r IH]; intros c g H; cbn [merge_loop]; [exact H|].
  inversion H as [|? ? ? Hs Hr]; subst. inversion Hr as [|? ? ? Hs' Hr']; subst.
  destruct (isMove s && isMove g) eqn:E.
  - apply IH. constructor; auto.
  - constructor; auto.
Qed.
Lemma mergeMoves_connected l : connected l -> connected (mergeMoves l).
Proof.
  destruct l as [|g r]; [auto|]. intros H. cbn [mergeMoves].
  destruct (merge_loop_ndm r g) as [_ (h & t & E & Hm & Hs)].
  assert (Hc : chain (sstart g) (merge_loop g r)) by (apply merge_loop_chain; exact H).
  rewrite E in *. cbn. rewrite Hs. exact Hc.
Qed.

(** the first loop *)
Lemma hasNaNEnd_setStart g c : hasNaNEnd (setStart g c) = hasNaNEnd g.
Proof. unfold hasNaNEnd. rewrite send_setStart. reflexivity. Qed.

Definition clean_ends l := Forall (fun g => hasNaNEnd g = false) l.

Lemma cleanup_loop_chain (L : EqLaws N) prec l : forall prev, clean_ends l -> chain prev (cleanup_loop prec false prev l).
Proof.
  induction l as [|s r IH]; intros prev Hn; cbn [cleanup_loop]; [constructor|].
  inversion Hn as [|? ? Hs Hr]; subst.
  destruct (ptEquals (sstart s) prev) eqn:E.
  - rewrite Hs. cbn. constructor; auto.
    unfold ptEquals in E. apply andb_prop in E as [Ex Ey]. rewrite (eqb_sym L) in Ex, Ey. right; auto.
  - destruct (EqualsPrecision _ _ _) eqn:Ep; cbv zeta.
    + rewrite hasNaNEnd_setStart, Hs. cbn. constructor; [apply same_place_refl|].
      cbn. constructor; [apply same_place_refl|]. rewrite send_setStart. auto.
    + rewrite Hs. cbn. constructor; [apply same_place_refl|]. cbn. constructor; [apply same_place_refl|]. auto.
Qed.

Lemma cleanup_first (L : EqLaws N) prec p : clean_ends p ->
  connected (cleanup_loop prec true zeroPt p) /\
  (p <> [] -> exists s e r, cleanup_loop prec true zeroPt p = Move s e :: r).
Proof.
  destruct p as [|s r]; intros Hn; cbn [cleanup_loop]; [split; [constructor|congruence]|].
  inversion Hn as [|? ? Hs Hr]; subst. rewrite Hs.
  destruct (isMove s) eqn:Em; cbn [app].
  - split.
    + apply connected_cons. apply cleanup_loop_chain; auto.
    + intros _. destruct s; try discriminate. eauto.
  - split.
    + apply connected_cons. constructor; [apply same_place_refl|]. apply cleanup_loop_chain; auto.
    + eauto.
Qed.

(** how a drawn segment may change: its start may be moved to a point equal to it to [prec] decimals *)
Definition realigned (prec : nat) g h : Prop :=
  h = g \/ (same_but_start g h /\ EqualsPrecision (sstart g) (sstart h) (Z.of_nat prec) = true).

Lemma cleanup_loop_drawn prec l : forall first prev,
  Forall2 (realigned prec) (drawn (filter (fun g => negb (hasNaNEnd g)) l)) (drawn (cleanup_loop prec first prev l)).
Proof.
  induction l as [|s r IH]; intros first prev; [constructor|].
  cbn [cleanup_loop filter].
  set (X := if first then _ else _).
  assert (HX : exists added s', X = (added, s') /\ drawn added = [] /\ realigned prec s s' /\ hasNaNEnd s' = hasNaNEnd s /\ isMove s' = isMove s).
  { subst X. destruct first.
    - exists (if isMove s then [] else [Move zeroPt (sstart s)]), s.
      repeat split; auto; [destruct (isMove s); reflexivity|left; reflexivity].
    - destruct (ptEquals (sstart s) prev).
      + exists [], s. repeat split; auto. left; reflexivity.
      + destruct (EqualsPrecision _ _ _) eqn:Ep; cbv zeta.
        * eexists _, _. split; [reflexivity|]. rewrite hasNaNEnd_setStart, isMove_setStart, sstart_setStart.
          repeat split; auto. right. rewrite sstart_setStart. split; auto. destruct s; cbn; auto.
        * eexists _, _. split; [reflexivity|]. repeat split; auto. left; reflexivity. }
  destruct HX as (added & s' & -> & Ha & Hre & Hn & Hm).
  rewrite drawn_app, Ha, Hn. cbn [app].
  destruct (hasNaNEnd s) eqn:En; cbn [negb].
  - apply IH.
  - rewrite !drawn_cons, Hm. destruct (isMove s) eqn:Em; cbn [app].
    + apply IH.
    + constructor; auto.
Qed.

Lemma Cleanup_unfold prec p :
  Cleanup prec p = NewPathFromSegments (mergeMoves (FixHeadMove (cleanup_loop prec true zeroPt p))).
Proof. reflexivity. Qed.

Lemma Cleanup_drawn prec p :
  Forall2 (realigned prec) (drawn (filter (fun g => negb (hasNaNEnd g)) p)) (drawn (Cleanup prec p)).
Proof. rewrite Cleanup_unfold, NPFS_drawn, mergeMoves_drawn, FixHeadMove_drawn. apply cleanup_loop_drawn. Qed.

Lemma Cleanup_drawn_clean_ends prec p : clean_ends (drawn (Cleanup prec p)).
Proof.
  pose proof (Cleanup_drawn prec p) as H.
  set (a := drawn (Cleanup prec p)) in *. clearbody a.
  assert (Hf : clean_ends (drawn (filter (fun g => negb (hasNaNEnd g)) p))).
  { apply Forall_forall. intros g Hg. rewrite drawn_filter in Hg. apply filter_In in Hg as [Hg _].
    apply filter_In in Hg as [_ Hg]. destruct (hasNaNEnd g); auto; discriminate. }
  set (b := drawn (filter _ p)) in *. clearbody b. induction H as [|g h b' a' Hr H' IH]; [constructor|].
  inversion Hf as [|? ? H1 H2]; subst. constructor; [|apply IH; exact H2].
  destruct Hr as [->|[Hs _]]; auto. unfold hasNaNEnd in *. destruct g, h; cbn in *; try contradiction; try subst; auto.
  destruct Hs as (_ & -> & _). auto.
Qed.

Lemma Cleanup_wf (L : EqLaws N) prec p : p <> [] -> clean_ends p ->
  starts_with_origin_move (Cleanup prec p) /\ connected (Cleanup prec p) /\ no_double_move (Cleanup prec p).
Proof.
  intros Hp Hn. rewrite Cleanup_unfold.
  destruct (cleanup_first L prec p Hn) as [Hc Hh]. destruct (Hh Hp) as (s & e & r & E).
  assert (Hf : exists s' , FixHeadMove (cleanup_loop prec true zeroPt p) = Move s' e :: r).
  { rewrite E. cbn. destruct (_ || _); eauto. }
  apply FixHeadMove_connected, mergeMoves_connected in Hc.
  destruct Hf as (s' & Ef). rewrite Ef in *.
  cbn [mergeMoves] in *. destruct (merge_loop_ndm r (Move s' e)) as [Hd (h & t & Em & Hm & Hs)].
  rewrite Em in *. destruct h as [hs he| |]; try discriminate.
  split; [|split].
  - apply NPFS_origin. discriminate.
  - apply NPFS_connected. exact Hc.
  - cbn. destruct (_ || _); cbn in *; destruct t as [|[]]; auto.
Qed.


(** ** cleaning a well-formed path changes nothing *)
Definition nan_free_pt c := isnan (px c) = false /\ isnan (py c) = false.
Definition nan_free_ends g := nan_free_pt (sstart g) /\ nan_free_pt (send g).

Lemma nan_free_hasNaN g : nan_free_ends g -> hasNaNEnd g = false.
Proof. intros [_ [H1 H2]]. unfold hasNaNEnd. rewrite H1, H2. reflexivity. Qed.

Lemma same_place_ptEquals (L : EqLaws N) c g : nan_free_pt (sstart g) -> same_place c (sstart g) -> ptEquals (sstart g) c = true.
Proof.
  intros [Hx Hy] [->|[Ex Ey]]; unfold ptEquals.
  - rewrite !(eqb_refl L) by assumption. reflexivity.
  - rewrite (eqb_sym L), Ex, (eqb_sym L), Ey. reflexivity.
Qed.

Lemma cleanup_loop_id (L : EqLaws N) prec l : forall prev, Forall nan_free_ends l -> chain prev l ->
  cleanup_loop prec false prev l = l.
Proof.
  induction l as [|s r IH]; intros prev Hn Hc; [reflexivity|]. cbn [cleanup_loop].
  inversion Hn as [|? ? Hs Hr]; subst. inversion Hc as [|? ? ? Hs' Hc']; subst.
  rewrite (same_place_ptEquals L prev s (proj1 Hs) Hs').
  rewrite (nan_free_hasNaN s Hs). cbn. f_equal. apply IH; auto.
Qed.

Lemma merge_loop_id l : forall g, no_double_move (g :: l) -> merge_loop g l = g :: l.
Proof.
  induction l as [|s r IH]; intros g H; [reflexivity|]. cbn [merge_loop].
  destruct H as [Hd Hr]. destruct (isMove s && isMove g) eqn:E.
  - apply andb_prop in E as [E1 E2]. destruct s, g; try discriminate. contradiction.
  - f_equal. apply IH. exact Hr.
Qed.

Lemma FixHeadMove_id (L : EqLaws N) l : starts_with_origin_move l -> FixHeadMove l = l.
Proof.
  intros (s & e & r & -> & H). cbn.
  assert (Hx : eqb (px s) zero = true) by (destruct H as [->|[H _]]; [apply (eqb_refl L), (zero_not_nan L)|exact H]).
  assert (Hy : eqb (py s) zero = true) by (destruct H as [->|[_ H]]; [apply (eqb_refl L), (zero_not_nan L)|exact H]).
  rewrite Hx, Hy. reflexivity.
Qed.

Lemma Cleanup_id (L : EqLaws N) prec q :
  Forall nan_free_ends q -> starts_with_origin_move q -> connected q -> no_double_move q -> Cleanup prec q = q.
Proof.
  intros Hn Ho Hc Hd. rewrite Cleanup_unfold.
  assert (E1 : cleanup_loop prec true zeroPt q = q).
  { destruct Ho as (s & e & r & -> & _). cbn [cleanup_loop isMove]. inversion Hn as [|? ? Hs Hr]; subst.
    rewrite (nan_free_hasNaN _ Hs). cbn [app]. f_equal. apply cleanup_loop_id; auto.
    apply connected_cons in Hc. exact Hc. }
  rewrite E1, (FixHeadMove_id L q Ho).
  assert (E2 : mergeMoves q = q) by (destruct q as [|g r]; [reflexivity|apply merge_loop_id; exact Hd]).
  rewrite E2. rewrite NPFS_eq.
  assert (E3 : HeadMove q = q) by (destruct Ho as (s & e & r & -> & _); reflexivity).
  rewrite E3. apply FixHeadMove_id; auto.
Qed.

Lemma cleanup_loop_nan_free (L : EqLaws N) prec l : forall first prev, nan_free_pt prev -> Forall nan_free_ends l ->
  Forall nan_free_ends (cleanup_loop prec first prev l).
Proof.
  assert (Hz : nan_free_pt zeroPt) by (split; apply (zero_not_nan L)).
  induction l as [|s r IH]; intros first prev Hp Hn; [constructor|]. cbn [cleanup_loop].
  inversion Hn as [|? ? Hs Hr]; subst. destruct Hs as [Hs1 Hs2].
  assert (Hh : hasNaNEnd s = false) by (apply nan_free_hasNaN; split; auto).
  destruct first.
  - rewrite Hh. apply Forall_app. split.
    + destruct (isMove s); repeat constructor; auto; try apply Hz; apply Hs1.
    + constructor; [split; auto|]. apply IH; auto.
  - destruct (ptEquals (sstart s) prev).
    + rewrite Hh. cbn. constructor; [split; auto|]. apply IH; auto.
    + destruct (EqualsPrecision _ _ _); cbv zeta.
      * rewrite hasNaNEnd_setStart, Hh. cbn [app]. constructor; [split; cbn; rewrite ?sstart_setStart; auto|].
        constructor; [split; rewrite ?sstart_setStart, ?send_setStart; auto|]. rewrite send_setStart. apply IH; auto.
      * rewrite Hh. cbn [app]. constructor; [split; auto|]. constructor; [split; auto|]. apply IH; auto.
Qed.

Lemma merge_loop_nan_free l : forall g, Forall nan_free_ends (g :: l) -> Forall nan_free_ends (merge_loop g l).
Proof.
  induction l as [|s r IH]; intros g H; [exact H|]. cbn [merge_loop].
  inversion H as [|? ? Hg H']; subst. inversion H' as [|? ? Hs Hr]; subst.
  destruct (isMove s && isMove g).
  - apply IH. constructor; auto. split; [apply Hg|apply Hs].
  - constructor; auto.
Qed.

Lemma FixHeadMove_nan_free (L : EqLaws N) l : Forall nan_free_ends l -> Forall nan_free_ends (FixHeadMove l).
Proof.
  assert (Hz : nan_free_pt zeroPt) by (split; apply (zero_not_nan L)).
  destruct l as [|[s e|s e|s a e b] r]; intros H; auto. cbn. destruct (_ || _); auto.
  inversion H as [|? ? H1 H2]; subst. constructor; auto. split; [exact Hz|apply H1].
Qed.

Lemma Cleanup_nan_free (L : EqLaws N) prec p : Forall nan_free_ends p -> Forall nan_free_ends (Cleanup prec p).
Proof.
  intros H. rewrite Cleanup_unfold, NPFS_eq. apply (FixHeadMove_nan_free L).
  assert (H1 : Forall nan_free_ends (mergeMoves (FixHeadMove (cleanup_loop prec true zeroPt p)))).
  { assert (H0 : Forall nan_free_ends (FixHeadMove (cleanup_loop prec true zeroPt p))).
    { apply (FixHeadMove_nan_free L). apply cleanup_loop_nan_free; auto. split; apply (zero_not_nan L). }
    destruct (FixHeadMove _) as [|g r]; [constructor|]. apply merge_loop_nan_free. exact H0. }
  destruct (mergeMoves _) as [|g r]; [constructor|]. cbn [HeadMove]. destruct (isMove g); auto.
  constructor; auto. inversion H1 as [|? ? Hg Hr]; subst. split; [|apply Hg].
  cbn [sstart]. unfold NewPoint, nan_free_pt, norm0; cbn.
  split; destruct (eqb _ _); apply (zero_not_nan L).
Qed.

Lemma Cleanup_idem (L : EqLaws N) prec p : p <> [] -> Forall nan_free_ends p ->
  Cleanup prec (Cleanup prec p) = Cleanup prec p.
Proof.
  intros Hp Hn. destruct (Cleanup_wf L prec p Hp) as (H1 & H2 & H3).
  { eapply Forall_impl; [|exact Hn]. apply nan_free_hasNaN. }
  apply Cleanup_id; auto. apply Cleanup_nan_free; auto.
Qed.

End Cleanup.
