(** Proofs about transforms/path_reorder.go (C10). *)
From Coq Require Import String List ZArith NArith Bool Lia Permutation.
From Verif Require Import Num NumLaws PathModel DrawModel SegOps TransformsModel PathSpec PathProofs TextProofs CleanupProofs DedupProofs.
Import ListNotations.

Section Reorder.
Context {N : Num}.
Notation P := (Pt N).
Notation seg := (seg N).
Implicit Types (p q : list seg).

(** ** specification *)
(** [d] is the stroke sequence [a] or the same sequence drawn backwards *)
Definition either_way (a d : list seg) : Prop := d = a \/ d = rev (map flip a).

(** [out] consists of the stroke groups [groups], each used exactly once, in any order, each drawn in either direction *)
Definition regrouped (groups : list (list seg)) (out : list seg) : Prop :=
  exists groups' ds, Permutation groups groups' /\ Forall2 either_way groups' ds /\ out = concat ds.

Lemma argmin_loop_bound ds : forall i b (best : T N),
  fst (argmin_loop i b best ds) = b \/ (i <= fst (argmin_loop i b best ds) < i + List.length ds)%nat.
Proof.
  induction ds as [|d r IH]; intros i b best; cbn [argmin_loop]; [left; reflexivity|].
  destruct (ltb d best).
  - destruct (IH (S i) i d) as [->|H]; right; cbn; lia.
  - destruct (IH (S i) b best) as [->|H]; [left; reflexivity|right; cbn; lia].
Qed.

Lemma argmin_bound ds (d : T N) : ds <> [] -> (fst (argmin_loop 0 0 d ds) < List.length ds)%nat.
Proof.
  intros H. destruct ds as [|x r]; [congruence|]. cbn [List.length].
  destruct (argmin_loop_bound (x :: r) 0 0 d) as [->|Hb]; cbn in *; lia.
Qed.

Lemma reorderStep_spec (L : EqLaws N) prec p pList : pList <> [] -> Forall connected pList ->
  exists q d pL, reorderStep prec p pList = Ok (NewPathFromSegments (p ++ d), pL) /\
    Permutation pList (q :: pL) /\ either_way (drawn q) (drawn d).
Proof.
  intros Hne Hc. unfold reorderStep.
  set (endPoint := snd _).
  set (sD := map _ pList). set (eD := map (fun q => Distance endPoint (snd _)) pList).
  assert (HsL : List.length sD = List.length pList) by apply map_length.
  assert (HeL : List.length eD = List.length pList) by apply map_length.
  destruct pList as [|q0 pL0]; [congruence|].
  destruct sD as [|s0 sD'] eqn:Es; [discriminate|]. destruct eD as [|e0 eD'] eqn:Ee; [discriminate|].
  pose proof (argmin_bound (s0 :: sD') s0 ltac:(discriminate)) as Hs.
  pose proof (argmin_bound (e0 :: eD') e0 ltac:(discriminate)) as He.
  destruct (argmin_loop 0 0 s0 (s0 :: sD')) as [si sd]. destruct (argmin_loop 0 0 e0 (e0 :: eD')) as [ei ed].
  cbn [fst] in Hs, He.
  set (X := if ltb ed sd then _ else _).
  assert (HX : exists i dist rv, X = (i, dist, rv) /\ (i < List.length (q0 :: pL0))%nat).
  { subst X. destruct (ltb ed sd); do 3 eexists; (split; [reflexivity|lia]). }
  destruct HX as (i & dist & rv & -> & Hi).
  set (Y := if PrecisionEquals _ _ _ then _ else _).
  assert (HY : exists j rv', Y = (j, rv') /\ (j < List.length (q0 :: pL0))%nat).
  { subst Y. destruct (PrecisionEquals _ _ _); do 2 eexists; (split; [reflexivity|cbn in *; lia]). }
  destruct HY as (j & rv' & -> & Hj).
  destruct (nth_error (q0 :: pL0) j) as [q|] eqn:En; [|apply nth_error_None in En; lia].
  exists q, (if rv' then PathReverse q else q), (firstn j (q0 :: pL0) ++ skipn (S j) (q0 :: pL0)).
  split; [reflexivity|]. split.
  - destruct (nth_error_split _ _ En) as (l1 & l2 & E & Hl). rewrite E.
    rewrite firstn_app, <- Hl, Nat.sub_diag. cbn [firstn]. rewrite firstn_all, app_nil_r.
    replace (S (List.length l1)) with (List.length (l1 ++ [q])) by (rewrite app_length; cbn; lia).
    change (l1 ++ q :: l2) with (l1 ++ [q] ++ l2). rewrite app_assoc, skipn_app, skipn_all, Nat.sub_diag. cbn.
    rewrite <- app_assoc. apply Permutation_sym, Permutation_middle.
  - destruct rv'; [right|left; reflexivity]. apply (PathReverse_drawn L).
    rewrite Forall_forall in Hc. apply Hc. eapply nth_error_In; exact En.
Qed.

Lemma reorder_loop_spec (L : EqLaws N) prec fuel : forall p pList, (List.length pList <= fuel)%nat -> Forall connected pList ->
  exists r groups' ds, reorder_loop fuel prec p pList = Ok r /\ Permutation (map drawn pList) groups' /\
    Forall2 either_way groups' ds /\ drawn r = drawn p ++ concat ds /\ (pList <> [] -> head_move r).
Proof.
  induction fuel as [|f IH]; intros p pList Hl Hc.
  - destruct pList as [|q r]; [|cbn in Hl; lia]. exists p, [], []. cbn. repeat split; auto; try congruence.
    symmetry; apply app_nil_r.
  - destruct pList as [|q0 r0].
    + exists p, [], []. cbn. repeat split; auto; try congruence. symmetry; apply app_nil_r.
    + cbn [reorder_loop].
      destruct (reorderStep_spec L prec p (q0 :: r0) ltac:(discriminate) Hc) as (q & d & pL & -> & Hp & Hw).
      cbn [bind].
      assert (Hlen : (List.length pL <= f)%nat).
      { apply Permutation_length in Hp. cbn in Hp, Hl. lia. }
      assert (HcL : Forall connected pL).
      { rewrite Forall_forall in *. intros x Hx. apply Hc. eapply Permutation_in; [apply Permutation_sym; exact Hp|right; exact Hx]. }
      destruct (IH (NewPathFromSegments (p ++ d)) pL Hlen HcL) as (r & gs & ds & Er & Hpg & Hf & Hd & Hh).
      exists r, (drawn q :: gs), (drawn d :: ds). split; [exact Er|]. split; [|split; [constructor; auto|split]].
      * apply (Permutation_map drawn) in Hp. eapply perm_trans; [exact Hp|]. cbn. apply perm_skip. exact Hpg.
      * rewrite Hd, NPFS_drawn, drawn_app. cbn. rewrite <- app_assoc. reflexivity.
      * intros _. destruct pL as [|x y]; [|apply Hh; discriminate].
        destruct f; cbn in Er; inversion Er; subst; apply NPFS_head_move.
Qed.

Lemma piece_connected (q : list seg) : piece q -> connected q.
Proof. intros (s & e & b & -> & _ & _ & H). apply connected_cons. exact H. Qed.

Lemma reorderPaths_spec (L : EqLaws N) prec p : connected p ->
  exists r, reorderPaths prec p = Ok r /\ regrouped (map drawn (SplitPathOnMove p)) (drawn r).
Proof.
  intros Hc. destruct (SplitPathOnMove_spec p Hc) as [Hd Hp]. unfold reorderPaths.
  assert (Hid : regrouped (map drawn (SplitPathOnMove p)) (drawn p)).
  { exists (map drawn (SplitPathOnMove p)), (map drawn (SplitPathOnMove p)). split; [apply Permutation_refl|].
    split; [|symmetry; exact Hd]. generalize (map drawn (SplitPathOnMove p)) as x.
    induction x; constructor; auto. left; reflexivity. }
  destruct (SplitPathOnMove p) as [|q [|q1 qs]] eqn:E; [exists p; auto|exists p; auto|].
  inversion Hp as [|? ? Hq Hqs]; subst.
  destruct (reorder_loop_spec L prec (List.length (q1 :: qs)) q (q1 :: qs)) as (r & gs & ds & Er & Hpg & Hf & Hdr & Hh); auto.
  { eapply Forall_impl; [|exact Hqs]. intros a [Ha _]. apply piece_connected; exact Ha. }
  exists r. split; [exact Er|]. exists (drawn q :: gs), (drawn q :: ds). repeat split; auto.
  - cbn [map]. apply perm_skip. exact Hpg.
  - constructor; auto. left; reflexivity.
Qed.

Lemma Reorder_spec (L : EqLaws N) prec p : connected p -> head_move p ->
  exists r, Reorder prec p = Ok r /\
  ((List.length (SplitPathOnMove p) <= 1)%nat /\ r = p \/
   exists out out', regrouped (map drawn (SplitPathOnMove p)) out /\ reduces prec out (drawn out') /\
     Forall2 (realigned prec) (drawn (filter (fun g => negb (hasNaNEnd g)) out')) (drawn r)).
Proof.
  intros Hc Hh. destruct (reorderPaths_spec L prec p Hc) as (r & Er & Hr).
  unfold Reorder. unfold reorderPaths in Er.
  pose proof (SplitPathOnMove_spec p Hc) as [Hd Hp].
  unfold reorderPaths. destruct (SplitPathOnMove p) as [|q [|q1 qs]] eqn:E.
  - exists p. split; auto.
  - exists p. split; auto.
  - rewrite Er. cbn [bind].
    assert (Hhr : head_move r).
    { inversion Hp as [|? ? Hq Hqs]; subst.
      destruct (reorder_loop_spec L prec (List.length (q1 :: qs)) q (q1 :: qs)) as (r' & gs & ds & Er' & _ & _ & _ & Hh'); auto.
      { eapply Forall_impl; [|exact Hqs]. intros a [Ha _]. apply piece_connected; exact Ha. }
      rewrite Er in Er'. inversion Er'; subst. apply Hh'. discriminate. }
    destruct (Dedup_spec prec r Hhr) as (q2 & q3 & Eq & Hred & Hf).
    exists q3. split; [exact Eq|]. right. exists (drawn r), q2. auto.
Qed.

End Reorder.
