(** C55: reordering continues where the pen is. *)
From Coq Require Import List ZArith NArith Bool Lia Reals Lra Permutation.
From Verif Require Import Num NumLaws FloatNum RealNum PathModel DrawModel SegOps TransformsModel PathSpec PathProofs TextProofs CleanupProofs DedupProofs ReorderProofs PrecisionProofs GeomSpec BezierProofs Witness.
Import ListNotations.
Local Open Scope R_scope.

(** A group is a sequence of strokes drawn without lifting the pen. *)
Notation group := (list (seg RNum)).
Definition firstPt (g : group) : Pt RNum := match g with [] => pnt 0 0 | a :: _ => sstart a end.
Definition lastPt (g : group) : Pt RNum := match rev g with [] => pnt 0 0 | a :: _ => send a end.
Definition gap (a b : Pt RNum) : R := sqrt ((X a - X b) ^ 2 + (Y a - Y b) ^ 2).
(** closer than half a unit of the last of [prec] decimals *)
Definition touches (prec : nat) (a b : Pt RNum) : Prop := gap a b <= / (2 * 10 ^ prec).

(** [follows prec at rest out]: with the pen at [at], the groups [rest] are drawn as [out]: next comes the group with the end nearest to the pen,
    from that end, if that touches the pen; if nothing touches the pen, the first of the rest, as it is. *)
Inductive follows (prec : nat) : Pt RNum -> list group -> list group -> Prop :=
| fol_done at_ : follows prec at_ [] []
| fol_forward at_ l g r out : touches prec at_ (firstPt g) ->
    (forall h, In h (l ++ g :: r) -> gap at_ (firstPt g) <= gap at_ (firstPt h) /\ gap at_ (firstPt g) <= gap at_ (lastPt h)) ->
    follows prec (lastPt g) (l ++ r) out -> follows prec at_ (l ++ g :: r) (g :: out)
| fol_backward at_ l g r out : touches prec at_ (lastPt g) ->
    (forall h, In h (l ++ g :: r) -> gap at_ (lastPt g) < gap at_ (firstPt h) /\ gap at_ (lastPt g) <= gap at_ (lastPt h)) ->
    follows prec (firstPt g) (l ++ r) out -> follows prec at_ (l ++ g :: r) (rev (map flip g) :: out)
| fol_jump at_ g r out : (forall h, In h (g :: r) -> ~ touches prec at_ (firstPt h) /\ ~ touches prec at_ (lastPt h)) ->
    follows prec (lastPt g) r out -> follows prec at_ (g :: r) (g :: out).

Lemma argmin_R ds : forall i b best, exists j m, @argmin_loop RNum i b (Fin best) (map Fin ds) = (j, Fin m) /\ m <= best /\ (forall d, In d ds -> m <= d) /\
  (j = b /\ m = best \/ exists k, j = (i + k)%nat /\ nth_error ds k = Some m).
Proof.
  induction ds as [|d r IH]; intros i b best; cbn [argmin_loop map].
  - exists b, best. repeat split; auto; [lra|intros ? []].
  - change (@ltb RNum (Fin d) (Fin best)) with (Rltb d best). unfold Rltb. destruct (Rlt_dec d best) as [H|H].
    + destruct (IH (S i) i d) as (j & m & -> & Hm & Ha & Hc). exists j, m. split; [reflexivity|]. split; [lra|]. split; [intros x [<-|I]; auto|].
      right. destruct Hc as [[-> ->]|(k & -> & E)]; [exists 0%nat; split; [lia|reflexivity]|exists (S k); split; [lia|exact E]].
    + destruct (IH (S i) b best) as (j & m & -> & Hm & Ha & Hc). exists j, m. split; [reflexivity|]. split; [lra|]. split; [intros x [<-|I]; [lra|auto]|].
      destruct Hc as [[-> ->]|(k & -> & E)]; [left; auto|right; exists (S k); split; [lia|exact E]].
Qed.
Lemma argmin_first d r : exists j m, @argmin_loop RNum 0 0 (Fin d) (map Fin (d :: r)) = (j, Fin m) /\ (forall x, In x (d :: r) -> m <= x) /\ nth_error (d :: r) j = Some m.
Proof.
  destruct (argmin_R (d :: r) 0 0 d) as (j & m & E & _ & Ha & Hc). exists j, m. split; [exact E|]. split; [exact Ha|]. destruct Hc as [[-> ->]|(k & -> & N)]; [reflexivity|exact N].
Qed.

Lemma round_zero y : 0 <= y -> (Rround_he y = 0%N <-> y <= 1 / 2).
Proof.
  intros Hy. split.
  - intros E. pose proof (Rround_he_spec y Hy) as H. rewrite E in H. cbn in H. revert H. unfold Rabs. destruct (Rcase_abs _); lra.
  - intros H. unfold Rround_he. assert (E : Int_part y = 0%Z). { pose proof (base_Int_part y) as [A B]. apply Z.le_antisymm.
      - apply Z.lt_succ_r. apply lt_IZR. cbn. lra.
      - apply Zlt_succ_le. apply lt_IZR. rewrite succ_IZR. lra. }
    rewrite E. cbn. repeat match goal with |- context [Rlt_dec ?a ?b] => destruct (Rlt_dec a b) end; try lra; reflexivity.
Qed.
Lemma touch_bool d prec : 0 <= d -> @PrecisionEquals RNum (Fin d) zero (Z.of_nat prec) = true <-> d <= / (2 * 10 ^ prec).
Proof.
  intros Hd. assert (P : 0 < 10 ^ prec) by (apply pow_lt; lra). rewrite PrecisionEquals_same. unfold same_dec. cbn.
  assert (F1 : Rltb d 0 = false) by (unfold Rltb; destruct (Rlt_dec d 0); auto; lra). assert (F2 : Rltb 0 0 = false) by (unfold Rltb; destruct (Rlt_dec 0 0); auto; lra).
  rewrite F1, F2, Rabs_R0, Rmult_0_l, (Rabs_pos_eq d Hd). assert (Z0 : Rround_he 0 = 0%N) by (apply round_zero; lra). rewrite Z0.
  assert (Q : 0 <= d * 10 ^ prec) by (apply Rmult_le_pos; lra). split.
  - intros E. injection E as E. apply round_zero in E; [|exact Q]. apply Rmult_le_reg_r with (10 ^ prec); [lra|]. replace (/ (2 * 10 ^ prec) * 10 ^ prec) with (1 / 2) by (field; lra). exact E.
  - intros E. f_equal. apply round_zero; [exact Q|]. apply Rmult_le_compat_r with (r := 10 ^ prec) in E; [|lra]. replace (/ (2 * 10 ^ prec) * 10 ^ prec) with (1 / 2) in E by (field; lra). exact E.
Qed.

Lemma distance_gap a b : finitePt a -> finitePt b -> Distance a b = Fin (gap a b).
Proof.
  intros Fa Fb. unfold Distance. rewrite (px_fin _ Fa), (py_fin _ Fa), (px_fin _ Fb), (py_fin _ Fb). fin. unfold gap. rewrite fsqrt by (apply Rplus_le_le_0_compat; apply Rle_0_sqr). do 2 f_equal. ring.
Qed.
Lemma same_finite a b : finitePt b -> same_place a b -> a = b.
Proof.
  intros F [H|[Hx Hy]]; [exact H|]. rewrite F in *. destruct a as [ax ay]. cbn in Hx, Hy. unfold pnt.
  destruct ax, ay; try discriminate. cbn in Hx, Hy. unfold Reqb in *. repeat match goal with H : context [Req_EM_T ?a ?b] |- _ => destruct (Req_EM_T a b); [subst|discriminate] end. reflexivity.
Qed.

(** the pieces the path is cut into *)
Definition good (q : path RNum) : Prop := piece q /\ drawn q <> [] /\ Forall finiteSeg (drawn q).
Lemma all_visible (l : path RNum) : Forall visible l -> drawn l = l.
Proof. induction 1 as [|g r V _ IH]; [reflexivity|]. destruct g; [destruct V|..]; cbn; rewrite IH; reflexivity. Qed.
Lemma seg_ends g : finiteSeg g -> finitePt (sstart g) /\ finitePt (send g).
Proof. destruct g; cbn; tauto. Qed.
Lemma last_any {A} (l : list A) : l <> [] -> forall a b, last l a = last l b.
Proof. induction l as [|x r IH]; [congruence|]. intros _ a b. destruct r; [reflexivity|]. apply IH. discriminate. Qed.
Lemma last_in {A} (l : list A) : l <> [] -> forall a, In (last l a) l.
Proof. induction l as [|x r IH]; [congruence|]. intros _ a. destruct r; [left; reflexivity|]. right. apply IH. discriminate. Qed.
Lemma good_ends q : good q -> GetStartAndEnd q = (firstPt (drawn q), lastPt (drawn q)) /\ finitePt (firstPt (drawn q)) /\ finitePt (lastPt (drawn q)) /\ connected q.
Proof.
  intros (P & NE & F). pose proof (piece_connected q P) as C. destruct P as (s & e & body & -> & _ & V & Ch). cbn [drawn] in *. rewrite (all_visible _ V) in *.
  destruct body as [|g r]; [congruence|]. inversion Ch as [|? ? ? Hs Hr]; subst. inversion F as [|? ? Fg Fr]; subst. cbn [GetStartAndEnd firstPt send].
  assert (L : last (Move s e :: g :: r) (Move s e) = last (g :: r) g) by (apply (last_any (g :: r)); discriminate).
  assert (E : lastPt (g :: r) = send (last (g :: r) g)).
  { unfold lastPt. destruct (rev (g :: r)) as [|a b] eqn:R; [apply (f_equal (@List.length _)) in R; rewrite rev_length in R; discriminate|].
    apply (f_equal (@rev _)) in R. rewrite rev_involutive in R. cbn [rev] in R. rewrite R, last_last. reflexivity. }
  assert (I : In (last (g :: r) g) (g :: r)) by (apply last_in; discriminate).
  assert (FL : finiteSeg (last (g :: r) g)) by (rewrite Forall_forall in F; apply F, I).
  split; [f_equal; [apply same_finite; [apply seg_ends, Fg|exact Hs]|rewrite E, L; reflexivity]|].
  split; [apply seg_ends, Fg|]. split; [rewrite E; apply seg_ends, FL|exact C].
Qed.
Lemma trimmed_end (p : path RNum) : drawn p <> [] -> snd (GetStartAndEnd (TrimTailMove p)) = lastPt (drawn p).
Proof.
  intros NE. rewrite <- TrimTailMove_drawn in *. destruct (TrimTailMove_ends p) as [E|(i & g & E & V)]; [rewrite E in NE; destruct NE; reflexivity|]. rewrite E.
  assert (L : snd (GetStartAndEnd (i ++ [g])) = send g).
  { destruct i as [|a i]; [reflexivity|]. change (send (last ((a :: i) ++ [g]) a) = send g). rewrite last_last. reflexivity. }
  rewrite L, drawn_app. unfold lastPt. rewrite rev_app_distr. destruct g; [destruct V|..]; reflexivity.
Qed.
Lemma flip_ends (g : seg RNum) : sstart (flip g) = send g /\ send (flip g) = sstart g. Proof. destruct g; auto. Qed.
Lemma lastPt_flipped (d : group) : d <> [] -> lastPt (rev (map flip d)) = firstPt d.
Proof. intros NE. unfold lastPt. rewrite rev_involutive. destruct d as [|g r]; [congruence|]. cbn. apply flip_ends. Qed.
Lemma drawn_not_empty (q : path RNum) : drawn q <> [] -> rev (map flip (drawn q)) <> [].
Proof. intros NE E. apply NE. apply (f_equal (@List.length _)) in E. rewrite rev_length, map_length in E. destruct (drawn q); [reflexivity|discriminate]. Qed.
Lemma lastPt_app (a b : group) : b <> [] -> lastPt (a ++ b) = lastPt b.
Proof. intros NE. unfold lastPt. rewrite rev_app_distr. destruct (rev b) eqn:E; [|reflexivity]. apply (f_equal (@rev _)) in E. rewrite rev_involutive in E. destruct (NE E). Qed.
Lemma gap_pos a b : 0 <= gap a b. Proof. apply sqrt_pos. Qed.
Lemma removed {A} (l : list A) i q : nth_error l i = Some q -> exists a b, l = a ++ q :: b /\ firstn i l ++ skipn (S i) l = a ++ b.
Proof.
  intros En. destruct (nth_error_split _ _ En) as (l1 & l2 & E & Hl). exists l1, l2. split; [exact E|]. rewrite E.
  rewrite firstn_app, <- Hl, Nat.sub_diag. cbn [firstn]. rewrite firstn_all, app_nil_r.
  replace (S (List.length l1)) with (List.length (l1 ++ [q])) by (rewrite app_length; cbn; lia).
  change (l1 ++ q :: l2) with (l1 ++ [q] ++ l2). rewrite app_assoc, skipn_app, skipn_all, Nat.sub_diag. reflexivity.
Qed.

Lemma step_follows prec p pList : drawn p <> [] -> finitePt (lastPt (drawn p)) -> pList <> [] -> Forall good pList ->
  exists p1 pL d, reorderStep prec p pList = Ok (p1, pL) /\ Forall good pL /\ List.length pList = S (List.length pL) /\ drawn p1 = drawn p ++ d /\ d <> [] /\ finitePt (lastPt d) /\
  (forall out, follows prec (lastPt d) (map drawn pL) out -> follows prec (lastPt (drawn p)) (map drawn pList) (d :: out)).
Proof.
  intros NE Fe NL G. unfold reorderStep. rewrite trimmed_end by exact NE. set (at_ := lastPt (drawn p)) in *.
  assert (S1 : map (fun q => Distance at_ (fst (GetStartAndEnd q))) pList = map Fin (map (fun q => gap at_ (firstPt (drawn q))) pList)).
  { rewrite map_map. apply map_ext_in. intros q I. rewrite Forall_forall in G. destruct (good_ends q (G q I)) as (-> & F1 & F2 & _). apply distance_gap; auto. }
  assert (S2 : map (fun q => Distance at_ (snd (GetStartAndEnd q))) pList = map Fin (map (fun q => gap at_ (lastPt (drawn q))) pList)).
  { rewrite map_map. apply map_ext_in. intros q I. rewrite Forall_forall in G. destruct (good_ends q (G q I)) as (-> & F1 & F2 & _). apply distance_gap; auto. }
  rewrite S1, S2. clear S1 S2. destruct pList as [|q0 r0]; [congruence|].
  change (map Fin (map (fun q => gap at_ (firstPt (drawn q))) (q0 :: r0))) with (Fin (gap at_ (firstPt (drawn q0))) :: map Fin (map (fun q => gap at_ (firstPt (drawn q))) r0)).
  change (map Fin (map (fun q => gap at_ (lastPt (drawn q))) (q0 :: r0))) with (Fin (gap at_ (lastPt (drawn q0))) :: map Fin (map (fun q => gap at_ (lastPt (drawn q))) r0)). cbv beta match.
  destruct (argmin_first (gap at_ (firstPt (drawn q0))) (map (fun q => gap at_ (firstPt (drawn q))) r0)) as (si & sd & E1 & A1 & N1).
  destruct (argmin_first (gap at_ (lastPt (drawn q0))) (map (fun q => gap at_ (lastPt (drawn q))) r0)) as (ei & ed & E2 & A2 & N2).
  cbn [map] in E1, E2. rewrite E1, E2. clear E1 E2. change (@ltb RNum (Fin ed) (Fin sd)) with (Rltb ed sd).
  change (gap at_ (firstPt (drawn q0)) :: map (fun q => gap at_ (firstPt (drawn q))) r0) with (map (fun q => gap at_ (firstPt (drawn q))) (q0 :: r0)) in *.
  change (gap at_ (lastPt (drawn q0)) :: map (fun q => gap at_ (lastPt (drawn q))) r0) with (map (fun q => gap at_ (lastPt (drawn q))) (q0 :: r0)) in *.
  assert (B1 : forall h, In h (map drawn (q0 :: r0)) -> sd <= gap at_ (firstPt h)).
  { intros h I. apply in_map_iff in I. destruct I as (q & <- & I). apply A1. apply (in_map (fun q => gap at_ (firstPt (drawn q)))). exact I. }
  assert (B2 : forall h, In h (map drawn (q0 :: r0)) -> ed <= gap at_ (lastPt h)).
  { intros h I. apply in_map_iff in I. destruct I as (q & <- & I). apply A2. apply (in_map (fun q => gap at_ (lastPt (drawn q)))). exact I. }
  clear A1 A2. rewrite nth_error_map in N1, N2.
  destruct (nth_error (q0 :: r0) si) as [qs|] eqn:Es; [|discriminate]. injection N1 as N1. destruct (nth_error (q0 :: r0) ei) as [qe|] eqn:Ee; [|discriminate]. injection N2 as N2.
  assert (Done : forall i q (rv : bool) d, nth_error (q0 :: r0) i = Some q -> d = drawn (if rv then PathReverse q else q) -> d <> [] -> finitePt (lastPt d) ->
    (forall a b out, q0 :: r0 = a ++ q :: b -> firstn i (q0 :: r0) ++ skipn (S i) (q0 :: r0) = a ++ b -> follows prec (lastPt d) (map drawn (a ++ b)) out -> follows prec at_ (map drawn (q0 :: r0)) (d :: out)) ->
    exists p1 pL d', match nth_error (q0 :: r0) i with Some q1 => Ok (NewPathFromSegments (p ++ (if rv then PathReverse q1 else q1)), firstn i (q0 :: r0) ++ skipn (S i) (q0 :: r0)) | None => Panic end = Ok (p1, pL) /\
    Forall good pL /\ List.length (q0 :: r0) = S (List.length pL) /\ drawn p1 = drawn p ++ d' /\ d' <> [] /\ finitePt (lastPt d') /\
    (forall out, follows prec (lastPt d') (map drawn pL) out -> follows prec at_ (map drawn (q0 :: r0)) (d' :: out))).
  { intros i q rv d En Ed Nd Fd H. rewrite En. destruct (removed _ _ _ En) as (a & b & El & Er). do 2 eexists. exists d. split; [reflexivity|]. rewrite Er.
    split; [rewrite El in G; apply Forall_app in G; destruct G as [G1 G2]; inversion G2; subst; apply Forall_app; auto|].
    split; [rewrite El, !app_length; cbn; lia|]. split; [rewrite NPFS_drawn, drawn_app; subst d; reflexivity|]. split; [exact Nd|]. split; [exact Fd|]. intros out F. apply (H a b out El Er F). }
  assert (Gq : forall i q, nth_error (q0 :: r0) i = Some q -> good q) by (intros i q En; rewrite Forall_forall in G; apply G; eapply nth_error_In; exact En).
  unfold Rltb. destruct (Rlt_dec ed sd) as [Lt|Ge].
  - destruct (@PrecisionEquals RNum (Fin ed) zero (Z.of_nat prec)) eqn:Pe.
    + apply touch_bool in Pe; [|rewrite <- N2; apply gap_pos]. pose proof (Gq _ _ Ee) as Hg. destruct (good_ends qe Hg) as (_ & F1 & F2 & C).
      assert (D : drawn (PathReverse qe) = rev (map flip (drawn qe))) by (apply (PathReverse_drawn RNum_eq_laws); exact C).
      destruct Hg as (_ & Ne & _). rewrite <- (lastPt_flipped _ Ne), <- D in F1.
      apply (Done ei qe true (drawn (PathReverse qe)) Ee eq_refl).
      * rewrite D. apply drawn_not_empty. exact Ne.
      * exact F1.
      * intros a b out El Er Fo. rewrite D in *. rewrite (lastPt_flipped _ Ne) in Fo. rewrite El, map_app. cbn [map]. rewrite map_app in Fo. apply fol_backward; [unfold touches; rewrite N2; exact Pe| |exact Fo].
        intros h I. rewrite <- (map_cons drawn), <- map_app, <- El in I. specialize (B1 h I). specialize (B2 h I). rewrite N2. split; lra.
    + assert (NT : forall h, In h (map drawn (q0 :: r0)) -> ~ touches prec at_ (firstPt h) /\ ~ touches prec at_ (lastPt h)).
      { intros h I. specialize (B1 h I). specialize (B2 h I). assert (~ ed <= / (2 * 10 ^ prec)) by (intros K; apply touch_bool in K; [congruence|rewrite <- N2; apply gap_pos]). unfold touches. split; lra. }
      destruct (good_ends q0 (Gq 0%nat q0 eq_refl)) as (_ & F1 & F2 & C). destruct (Gq 0%nat q0 eq_refl) as (_ & Ne & _).
      apply (Done 0%nat q0 false (drawn q0) eq_refl eq_refl Ne F2). intros a b out El Er Fo. cbn [map]. apply fol_jump; [exact NT|]. cbn [firstn skipn app] in Er. rewrite Er. exact Fo.
  - destruct (@PrecisionEquals RNum (Fin sd) zero (Z.of_nat prec)) eqn:Pe.
    + apply touch_bool in Pe; [|rewrite <- N1; apply gap_pos]. pose proof (Gq _ _ Es) as Hg. destruct (good_ends qs Hg) as (_ & F1 & F2 & C). destruct Hg as (_ & Ne & _).
      apply (Done si qs false (drawn qs) Es eq_refl Ne F2).
      intros a b out El Er Fo. rewrite El, map_app. cbn [map]. rewrite map_app in Fo. apply fol_forward; [unfold touches; rewrite N1; exact Pe| |exact Fo].
      intros h I. rewrite <- (map_cons drawn), <- map_app, <- El in I. specialize (B1 h I). specialize (B2 h I). rewrite N1. split; lra.
    + assert (NT : forall h, In h (map drawn (q0 :: r0)) -> ~ touches prec at_ (firstPt h) /\ ~ touches prec at_ (lastPt h)).
      { intros h I. specialize (B1 h I). specialize (B2 h I). assert (~ sd <= / (2 * 10 ^ prec)) by (intros K; apply touch_bool in K; [congruence|rewrite <- N1; apply gap_pos]). unfold touches. split; lra. }
      destruct (good_ends q0 (Gq 0%nat q0 eq_refl)) as (_ & F1 & F2 & C). destruct (Gq 0%nat q0 eq_refl) as (_ & Ne & _).
      apply (Done 0%nat q0 false (drawn q0) eq_refl eq_refl Ne F2). intros a b out El Er Fo. cbn [map]. apply fol_jump; [exact NT|]. cbn [firstn skipn app] in Er. rewrite Er. exact Fo.
Qed.

Lemma loop_follows prec fuel : forall p pList, (List.length pList <= fuel)%nat -> drawn p <> [] -> finitePt (lastPt (drawn p)) -> Forall good pList ->
  exists r ds, reorder_loop fuel prec p pList = Ok r /\ drawn r = drawn p ++ concat ds /\ follows prec (lastPt (drawn p)) (map drawn pList) ds.
Proof.
  induction fuel as [|f IH]; intros p pList L NE Fe G; (destruct pList as [|q0 r0]; [exists p, []; cbn; rewrite app_nil_r; repeat split; constructor|]); [cbn in L; lia|].
  cbn [reorder_loop]. destruct (step_follows prec p (q0 :: r0) NE Fe ltac:(discriminate) G) as (p1 & pL & d & -> & G1 & L1 & D1 & Nd & Fd & H). cbn [bind].
  destruct (IH p1 pL) as (r & ds & E & Dr & Fo); auto.
  - cbn in L, L1. lia.
  - rewrite D1. intros E. apply app_eq_nil in E. tauto.
  - rewrite D1, lastPt_app by exact Nd. exact Fd.
  - rewrite D1, lastPt_app in Fo by exact Nd. exists r, (d :: ds). split; [exact E|]. split; [rewrite Dr, D1; cbn; rewrite app_assoc; reflexivity|]. apply H. exact Fo.
Qed.

(** The groups of the path are drawn one after the other, the first one first, each next one as [follows] says. *)
Theorem C55_follows prec (p : path RNum) : connected p -> Forall finiteSeg p -> drawn p <> [] ->
  exists r first rest ds, reorderPaths prec p = Ok r /\ map drawn (SplitPathOnMove p) = first :: rest /\
    drawn r = first ++ concat ds /\ follows prec (lastPt first) rest ds.
Proof.
  intros C F NE. destruct (SplitPathOnMove_spec p C) as [D P]. unfold reorderPaths.
  assert (G : Forall good (SplitPathOnMove p)).
  { rewrite Forall_forall in *. intros q I. destruct (P q I) as [P1 P2]. split; [exact P1|]. split; [exact P2|]. apply Forall_forall. intros g Ig.
    assert (K : In g (drawn p)). { rewrite <- D. apply in_concat. exists (drawn q). split; [apply in_map; exact I|exact Ig]. }
    apply F. clear - K. induction p as [|h p IH]; [destruct K|]. destruct h; cbn in K; [right; auto|destruct K as [<-|K]; [left; auto|right; auto]..]. }
  destruct (SplitPathOnMove p) as [|q [|q1 qs]].
  - cbn in D. congruence.
  - exists p, (drawn q), [], []. cbn in D |- *. rewrite app_nil_r in *. repeat split; auto. constructor.
  - inversion G as [|? ? Gq Gr]; subst. destruct (good_ends q Gq) as (_ & _ & F2 & _). destruct (loop_follows prec (List.length (q1 :: qs)) q (q1 :: qs) (le_n _) (proj1 (proj2 Gq)) F2 Gr) as (r & ds & E & Dr & Fo).
    exists r, (drawn q), (map drawn (q1 :: qs)), ds. auto.
Qed.
Print Assumptions C55_follows.

(** two lines after the first: the second of them ends where the pen is, so it is drawn next and backwards *)
Definition l1 : seg RNum := Line (pnt 0 0) (pnt 1 0).
Definition l2 : seg RNum := Line (pnt 9 9) (pnt 8 8).
Definition l3 : seg RNum := Line (pnt 2 5) (pnt 1 0).
Definition ex_path : path RNum := [Move (pnt 0 0) (pnt 0 0); l1; Move (pnt 1 0) (pnt 9 9); l2; Move (pnt 8 8) (pnt 2 5); l3].
Lemma gap_pnt a b c d : gap (pnt a b) (pnt c d) = sqrt ((a - c) ^ 2 + (b - d) ^ 2). Proof. reflexivity. Qed.
Lemma root_over x : 1 <= x -> / (2 * 10 ^ 3) < sqrt x /\ 0 < sqrt x.
Proof. intros H. assert (1 <= sqrt x) by (rewrite <- sqrt_1; apply sqrt_le_1; lra). split; [|lra]. apply Rlt_le_trans with 1; [|exact H0]. rewrite <- Rinv_1. apply Rinv_lt_contravar; lra. Qed.
Example C55_example : connected ex_path /\ Forall finiteSeg ex_path /\ drawn ex_path <> [] /\
  follows 3 (lastPt [l1]) [[l2]; [l3]] [[flip l3]; [l2]].
Proof.
  split; [repeat (constructor; [left; reflexivity|]); constructor|]. split; [repeat constructor|]. split; [discriminate|].
  change [[flip l3]; [l2]] with (rev (map flip [l3]) :: [[l2]]). apply (fol_backward 3 _ [[l2]] [l3] []).
  - unfold touches. cbn [lastPt rev app send l3 l1]. rewrite gap_pnt. replace ((1 - 1) ^ 2 + (0 - 0) ^ 2) with 0 by ring. rewrite sqrt_0. apply Rlt_le, Rinv_0_lt_compat. lra.
  - cbn [lastPt rev app send l3 l1 l2 In firstPt sstart]. rewrite !gap_pnt. replace ((1 - 1) ^ 2 + (0 - 0) ^ 2) with 0 by ring. rewrite sqrt_0.
    intros h [<-|[<-|[]]]; cbn [firstPt lastPt rev app send sstart l2 l3]; rewrite !gap_pnt; (split; [apply root_over; lra|apply sqrt_pos]).
  - cbn [app lastPt rev firstPt l3 sstart]. apply fol_jump; [|constructor]. intros h [<-|[]]. unfold touches. cbn [firstPt lastPt rev app send sstart l2]. rewrite !gap_pnt.
    split; apply Rlt_not_le, root_over; lra.
Qed.
