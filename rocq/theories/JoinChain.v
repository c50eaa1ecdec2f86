(** When all pairs join properly, the whole join is contiguous (C11, C12). *)
From Coq Require Import String List ZArith NArith Bool Lia Permutation.
From Verif Require Import Num NumLaws PathModel DrawModel SegOps TransformsModel PathSpec PathProofs TextProofs CleanupProofs DedupProofs ReorderProofs JoinProofs JoinProofs2.
Import ListNotations.

Section JoinChain.
Context {N : Num}.
Notation F := (T N).
Notation P := (Pt N).
Notation seg := (seg N).
Implicit Types (g h : seg) (l p q : list seg).
Variable co : CurveOps N.
Variable dop : Z.
(** a kind of stroke whose members always join properly *)
Variable K : seg -> Prop.
Hypothesis K_visible : forall g, K g -> visible g.
Hypothesis K_flip : forall g, K g -> K (flip g).
Hypothesis K_start : forall g h, same_but_start h g -> K g -> K h.
Hypothesis K_join : forall g h, K g -> K h -> exists a b, Join co dop g h = Ok [a; b] /\ K a /\ K b /\ sstart a = sstart g /\ send b = send h /\ send a = sstart b.

Definition KP l : Prop := Forall K (drawn l).

Lemma K_all l : Forall visible l -> KP l -> Forall K l.
Proof.
  intros V H. induction V as [|g r Vg Vr IH]; [constructor|]. unfold KP in H. rewrite drawn_cons in H. apply visible_isMove in Vg. rewrite Vg in H. inversion H; subst. constructor; auto.
Qed.
Lemma K_KP l : Forall K l -> KP l.
Proof. intros H. unfold KP. induction H as [|g r Hg Hr IH]; [constructor|]. rewrite drawn_cons. apply Forall_app. split; [destruct (isMove g); constructor; auto|exact IH]. Qed.
Lemma KP_one g : (visible g -> K g) -> KP [g].
Proof. intros H. unfold KP. destruct g; cbn; constructor; auto; apply H; exact I. Qed.
Lemma KP_app l1 l2 : KP (l1 ++ l2) <-> KP l1 /\ KP l2.
Proof. unfold KP. rewrite drawn_app, Forall_app. reflexivity. Qed.
Lemma KP_in l g : KP l -> In g l -> visible g -> K g.
Proof.
  intros H I V. apply in_split in I. destruct I as (a & b & ->). apply KP_app in H. destruct H as [_ H]. unfold KP in H. rewrite drawn_cons in H. apply visible_isMove in V. rewrite V in H. inversion H; auto.
Qed.
Lemma KP_AddSegment d g : KP d -> (visible g -> K g) -> KP (AddSegment d g).
Proof.
  intros Hd Hg. assert (G : forall s, visible (setStart g s) -> K (setStart g s)).
  { intros s V. apply (K_start g); [apply setStart_sbs|]. apply Hg. apply visible_isMove. apply visible_isMove in V. rewrite isMove_setStart in V. exact V. }
  unfold AddSegment. set (d1 := match d with [] => _ | _ => d end). cbv zeta.
  assert (H1 : KP d1) by (subst d1; destruct d; [destruct g; constructor|exact Hd]). clearbody d1.
  apply KP_app. split; [exact H1|]. apply KP_one. destruct (ptEquals _ _); auto.
Qed.
Lemma KP_AddSegments gs : forall d, KP d -> Forall (fun g => visible g -> K g) gs -> KP (AddSegments d gs).
Proof.
  unfold AddSegments. induction gs as [|g r IH]; intros d Hd H; cbn [fold_left]; [exact Hd|]. inversion H; subst. apply IH; auto. apply KP_AddSegment; auto.
Qed.
Lemma KP_reverse p : KP p -> KP (PathReverse p).
Proof.
  intros H. rewrite PathReverse_flip. apply KP_AddSegments; [constructor|]. apply Forall_forall. intros g I V. apply in_rev in I. apply in_map_iff in I. destruct I as (h & <- & I).
  apply K_flip. apply (KP_in p); auto. destruct h; auto.
Qed.
Lemma KP_trim p : KP p -> KP (TrimMove p). Proof. unfold KP. rewrite TrimMove_drawn. auto. Qed.
Lemma connected_part l1 l2 l3 : connected (l1 ++ l2 ++ l3) -> connected l2.
Proof.
  intros H. destruct (connected_chain _ H) as (c & C). apply chain_app in C. destruct C as [_ C]. apply chain_app in C. destruct C as [C _]. eapply chain_connected; exact C.
Qed.
Lemma reverse_trim_connected p : connected (TrimMove (PathReverse p)).
Proof.
  destruct (TrimMove_pieces (PathReverse p)) as (m1 & m2 & E & _). apply (connected_part m1 _ m2). rewrite <- E. eapply chain_connected, PathReverse_connected.
Qed.

(** replacing the last stroke by two that start where it does *)
Lemma joined_connected (i : list seg) (z a b : seg) : connected (i ++ [z]) -> sstart a = sstart z -> send a = sstart b -> connected (i ++ [a; b]).
Proof.
  intros H Ha Hb. destruct (connected_chain _ H) as (c & C). apply chain_snoc in C. destruct C as [C1 C2]. apply (chain_connected _ c). apply chain_app. split; [exact C1|].
  constructor; [rewrite Ha; exact C2|]. constructor; [left; exact Hb|constructor].
Qed.

Lemma join_connected prec fuel : forall pth1 pth2 q, KP pth1 -> KP pth2 -> Forall visible (TrimMove pth1) -> connected (TrimMove pth1) ->
  join co dop fuel prec pth1 pth2 = Ok q -> Forall K q /\ connected q.
Proof.
  induction fuel as [|f IH]; intros pth1 pth2 q K1 K2 V C E; [discriminate|].
  destruct (join_step co dop f prec pth1 pth2) as [(H2 & E')|[(s2 & r2 & H2 & H1 & E')|[(H1 & H2 & _ & E')|(q1 & q2 & H1 & H2 & _ & E' & Hq1 & Hq2 & _)]]]; rewrite E' in E; clear E'.
  - injection E as <-. split; [apply K_all; [exact V|apply KP_trim; exact K1]|exact C].
  - assert (Hs : visible s2) by (destruct (TrimMove_ends pth2) as [E2|[(g & r & E2 & Hg) _]]; rewrite E2 in H2; inversion H2; subst; auto).
    pose proof (KP_trim _ K2) as K2'. rewrite H2 in K2'. change (s2 :: r2) with ([s2] ++ r2) in K2'. apply KP_app in K2'. destruct K2' as [Ks Kr].
    apply IH in E; auto.
    + unfold KP. rewrite NPFSWM_drawn. exact Kr.
    + rewrite TrimMove_visible_id; repeat constructor; auto.
    + rewrite TrimMove_visible_id by (repeat constructor; auto). cbn. constructor; [apply same_place_refl|constructor].
  - unfold joinNormal in E. pose proof (KP_trim _ K1) as K1'. pose proof (KP_trim _ K2) as K2'.
    assert (Hs : forall s2 r2, TrimMove pth2 = s2 :: r2 -> visible s2) by (intros s2 r2 X; destruct (TrimMove_ends pth2) as [E2|[(g & r & E2 & Hg) _]]; rewrite E2 in X; inversion X; subst; auto).
    destruct (TrimMove pth1) as [|g1 r1]; [congruence|]. destruct (TrimMove pth2) as [|s2 r2]; [congruence|]. specialize (Hs s2 r2 eq_refl).
    destruct (exists_last (l := g1 :: r1) ltac:(discriminate)) as (i & z & Ez). rewrite Ez in *. rewrite last_last in E.
    change (s2 :: r2) with ([s2] ++ r2) in K2'. apply KP_app in K2'. destruct K2' as [Ks Kr]. assert (Ks2 : K s2) by (apply (KP_in [s2]); [exact Ks|left; reflexivity|exact Hs]).
    apply K_all in K1'; [|exact V]. apply Forall_app in K1'. destruct K1' as [Ki Kz]. assert (Kz' : K z) by (inversion Kz; auto).
    assert (HJ : exists a b, (if EqualsPrecision (send z) (sstart s2) (Z.of_nat prec) then Ok [z; setStart s2 (send z)] else Join co dop z s2) = Ok [a; b] /\ K a /\ K b /\ sstart a = sstart z /\ send a = sstart b).
    { destruct (EqualsPrecision _ _ _).
      - exists z, (setStart s2 (send z)). split; [reflexivity|]. split; [exact Kz'|]. split; [apply (K_start s2); [apply setStart_sbs|exact Ks2]|]. split; [reflexivity|]. rewrite sstart_setStart. reflexivity.
      - destruct (K_join z s2 Kz' Ks2) as (a & b & EJ & Ka & Kb & Ea & _ & Eb). exists a, b. auto. }
    destruct HJ as (a & b & EJ & Ka & Kb & Ea & Eb). rewrite EJ in E. cbn [bind] in E. unfold TrimLast in E. rewrite removelast_last in E.
    assert (KK : Forall K (i ++ [a; b])) by (apply Forall_app; split; auto). assert (VV : Forall visible (i ++ [a; b])) by (eapply Forall_impl; [exact K_visible|exact KK]).
    rewrite (NPFSWM_visible _ VV) in E. apply IH in E; auto.
    + apply K_KP. exact KK.
    + unfold KP. rewrite NPFSWM_drawn. exact Kr.
    + rewrite TrimMove_visible_id; auto.
    + rewrite TrimMove_visible_id by auto. apply (joined_connected i z); auto.
  - destruct (TrimMove_ends pth1) as [E1|T1]; [congruence|]. apply IH in E; auto.
    + destruct Hq1 as [->| ->]; [apply KP_trim, K1|apply KP_reverse, KP_trim, K1].
    + destruct Hq2 as [->| ->]; [apply KP_trim, K2|apply KP_reverse, KP_trim, K2].
    + destruct Hq1 as [->| ->]; [rewrite TrimMove_idem; exact V|]. destruct (PathReverse_trimmed _ T1) as (x & Ex & _ & _ & _ & _ & Hx). rewrite Ex. apply Hx. exact V.
    + destruct Hq1 as [->| ->]; [rewrite TrimMove_idem; exact C|apply reverse_trim_connected].
Qed.

Lemma sublist_KP (a b : list seg) : sublist a b -> Forall K b -> Forall K a.
Proof. induction 1; intros X; auto; inversion X; subst; auto. Qed.
Lemma realigned_K prec (a b : list seg) : Forall2 (realigned prec) a b -> Forall K a -> Forall K b.
Proof.
  induction 1 as [|g h a b [->|[Hs _]] H IH]; intros HK; auto; inversion HK; subst; constructor; auto. apply (K_start g); auto. clear - Hs. destruct g, h; cbn in *; try contradiction; intuition congruence.
Qed.
Lemma filter_KP f l : KP l -> KP (filter f l).
Proof. unfold KP. intros H. induction l as [|g r IH]; [constructor|]. rewrite drawn_cons in H. apply Forall_app in H. destruct H as [H1 H2]. cbn. destruct (f g); auto. rewrite drawn_cons. apply Forall_app. split; auto. Qed.
Lemma Dedup_KP prec p q : head_move p -> KP p -> Dedup prec p = Ok q -> KP q.
Proof.
  intros Hh HK E. destruct (Dedup_spec prec p Hh) as (x & q1 & E1 & Hr & Hf). rewrite E in E1. injection E1 as <-. unfold KP. eapply realigned_K; [exact Hf|]. apply filter_KP.
  unfold KP. eapply sublist_KP; [eapply reduces_sublist; exact Hr|exact HK].
Qed.
Lemma regrouped_K groups out : regrouped groups out -> Forall K (concat groups) -> Forall K out.
Proof.
  intros (gs & ds & Hp & Hf & ->) H. assert (H' : Forall K (concat gs)).
  { rewrite Forall_forall in *. intros g I. apply H. apply in_concat in I. destruct I as (x & Ix & Ig). apply in_concat. exists x. split; auto. eapply Permutation_in; [apply Permutation_sym; exact Hp|exact Ix]. }
  clear Hp H. induction Hf as [|a d gs ds Hw Hf IH]; [constructor|]. cbn in *. apply Forall_app in H'. destruct H' as [Ha Hg]. apply Forall_app. split; auto.
  destruct Hw as [->| ->]; auto. apply Forall_rev'. clear - Ha K_flip. induction Ha; cbn; constructor; auto.
Qed.
Lemma Reorder_KP (L : EqLaws N) prec p q : connected p -> head_move p -> KP p -> Reorder prec p = Ok q -> KP q.
Proof.
  intros Hc Hh HK E. destruct (Reorder_spec L prec p Hc Hh) as (r & E' & H). rewrite E in E'. injection E' as <-. destruct H as [[_ ->]|(out & mid & Hg & Hr & Hf)]; [exact HK|].
  unfold KP. eapply realigned_K; [exact Hf|]. apply filter_KP. unfold KP. eapply sublist_KP; [eapply reduces_sublist; exact Hr|]. eapply regrouped_K; [exact Hg|].
  destruct (SplitPathOnMove_spec p Hc) as [-> _]. exact HK.
Qed.

Lemma close_connected roomy p : Forall K p -> connected p -> p <> [] ->
  exists q a r, closeStep co dop roomy p = Ok q /\ q = a :: r /\ Forall K q /\ connected q /\ (r <> [] -> send (last r a) = sstart a).
Proof.
  intros HK C NE. destruct p as [|a r]; [congruence|]. unfold closeStep.
  destruct (exists_last (l := a :: r) ltac:(discriminate)) as (i & z & Ez).
  assert (Kz : K z) by (rewrite Ez in HK; apply Forall_app in HK; destruct HK as [_ HK]; inversion HK; auto). assert (Ka : K a) by (inversion HK; auto).
  destruct (K_join z a Kz Ka) as (c0 & t & EJ & K0 & Kt & E0 & Et & Em).
  rewrite Ez, last_last, EJ. cbn [bind Tail TrimLast removelast]. clear NE. destruct i as [|a' i].
  - injection Ez as -> ->. cbn. do 3 eexists. split; [reflexivity|]. split; [reflexivity|]. split; [auto|]. split; [constructor; [apply same_place_refl|constructor]|congruence].
  - injection Ez as <- ->. change (tl ((a :: i) ++ [z])) with (i ++ [z]). exists (t :: i ++ [c0]), t, (i ++ [c0]). assert (R : TrimLast (t :: i ++ [z]) = t :: i) by apply (removelast_last (t :: i)). split; [cbn in R |- *; rewrite R; reflexivity|]. split; [reflexivity|].
    inversion HK as [|? ? _ HK']; subst. apply Forall_app in HK'. destruct HK' as [Ki _]. split; [constructor; auto; apply Forall_app; auto|]. split; [|rewrite last_last; auto].
    apply connected_cons. apply connected_cons in C. rewrite Et. apply chain_snoc in C. destruct C as [C1 C2]. apply chain_snoc. split; [exact C1|]. rewrite E0. exact C2.
Qed.

Lemma JoinT_connected (O : OrdLaws N) fuel roomy closePath prec p q : head_move p -> Forall nan_free_ends p -> KP p ->
  JoinT co dop fuel roomy closePath prec p = Ok q -> connected q /\ KP q /\
  (closePath = true -> (List.length (drawn q) <= 1)%nat \/ exists a r, drawn q = a :: r /\ send (last r a) = sstart a).
Proof.
  intros Hh Hn HK. unfold JoinT. destruct p as [|g0 r0].
  - destruct fuel as [|f]; [discriminate|]. cbn. destruct closePath; cbn; intros E; injection E as <-; (split; [exact I|split; [constructor|intros _; left; cbn; lia]]).
  - destruct (Dedup_spec prec _ Hh) as (x & q1 & Eq1 & _ & _).
    destruct (Dedup_wf (ord_eq O) prec _ q1 Hh ltac:(discriminate) Hn Eq1) as (Ho & Hc & Hd & Hn1).
    pose proof (Dedup_KP prec _ q1 Hh HK Eq1) as HK1. rewrite Eq1. cbn [bind]. pose proof (head_move_origin _ Ho) as Hh1.
    destruct (Reorder_spec (ord_eq O) prec q1 Hc Hh1) as (q2 & Eq2 & _). pose proof (Reorder_KP (ord_eq O) prec q1 q2 Hc Hh1 HK1 Eq2) as HK2. rewrite Eq2. cbn [bind].
    destruct (join co dop fuel prec [] q2) as [q3| | |] eqn:EJ; cbn [bind]; try discriminate.
    destruct (join_connected prec fuel [] q2 q3 (Forall_nil _) HK2 (Forall_nil _) I EJ) as [K3 C3].
    destruct closePath.
    + destruct q3 as [|a r]; [cbn; intros E; injection E as <-; split; [exact I|split; [constructor|intros _; left; cbn; lia]]|].
      destruct (close_connected roomy (a :: r) K3 C3 ltac:(discriminate)) as (q4 & b & s & -> & -> & K4 & C4 & H4). cbn [bind]. intros E. injection E as <-.
      split; [apply NPFS_connected; exact C4|]. split; [unfold KP; rewrite NPFS_drawn; apply K_KP; exact K4|]. intros _.
      rewrite NPFS_drawn. assert (D : drawn (b :: s) = b :: s). { clear - K4 K_visible. induction K4 as [|g l Hg Hl IH]; [reflexivity|]. rewrite drawn_cons. apply K_visible in Hg. apply visible_isMove in Hg. rewrite Hg, IH. reflexivity. }
      rewrite D. destruct s as [|y s]; [left; cbn; lia|]. right. exists b, (y :: s). split; [reflexivity|]. apply H4. discriminate.
    + intros E. injection E as <-. split; [apply NPFS_connected; exact C3|]. split; [unfold KP; rewrite NPFS_drawn; apply K_KP; exact K3|discriminate].
Qed.
End JoinChain.
