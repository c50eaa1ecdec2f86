(** Rendering of components in exact arithmetic: repeating, joining and placing. *)
From Coq Require Import List ZArith Bool Reals Lra Lia.
From Verif Require Import Num RealNum RealTrig PathModel DrawModel SegOps TransformsModel Bezier GeomTransforms PathSpec GeomSpec PathProofs BezierProofs GeomProofs AffineProofs HandleProofs RotateProofs Prop_C14 Components.
Import ListNotations.
Local Open Scope R_scope.

(** int(math.Floor(x)) in exact arithmetic; out of the range of int64 the result is the least int64 (amd64) *)
Definition RFloor : FloorOps RNum :=
  mkFloor RNum (fun x => match x with
    | Fin r => let z := Int_part r in if ((- 2 ^ 63 <=? z) && (z <? 2 ^ 63))%Z then z else (- 2 ^ 63)%Z
    | _ => (- 2 ^ 63)%Z
    end).
Lemma RFloor_int x n : IZR n <= x < IZR n + 1 -> (- 2 ^ 63 <= n < 2 ^ 63)%Z -> nfloor RFloor (Fin x) = n.
Proof.
  intros H B. cbn [nfloor RFloor]. assert (E : Int_part x = n).
  { destruct (base_Int_part x) as [A1 A2]. assert (IZR (Int_part x) < IZR (n + 1)) by (rewrite plus_IZR; lra). assert (IZR n < IZR (Int_part x + 1)) by (rewrite plus_IZR; lra). apply lt_IZR in H0, H1. lia. }
  cbn zeta. rewrite E. destruct (Z.leb_spec (- 2 ^ 63) n); [|lia]. destruct (Z.ltb_spec n (2 ^ 63)); [|lia]. reflexivity.
Qed.

Definition starts (p : path RNum) (s : Pt RNum) : Prop := exists g r, p = g :: r /\ sstart g = s.
Definition ends (p : path RNum) (e : Pt RNum) : Prop := exists r g, p = (r ++ [g])%list /\ send g = e.

Lemma each_ok {A B} (F : A -> res B) (G : A -> B) l : (forall a, In a l -> F a = Ok (G a)) -> each F l = Ok (map G l).
Proof.
  induction l as [|a l IH]; intros H; [reflexivity|]. cbn [each map]. rewrite H by (left; auto). cbn [bind]. rewrite IH by (intros; apply H; right; auto). reflexivity.
Qed.
Lemma cloneSeg_finite g : finiteSeg g -> cloneSeg g = g.
Proof. destruct g; cbn; intros H; decompose [and] H; rewrite ?clonePt_finite by assumption; reflexivity. Qed.
Lemma clonePath_finite p : Forall finiteSeg p -> clonePath p = p.
Proof. unfold clonePath. induction 1; cbn; [reflexivity|]. rewrite cloneSeg_finite by auto. congruence. Qed.
Lemma tame_send g : tame g -> finitePt (send g). Proof. intros [F _]. destruct g; cbn in *; tauto. Qed.
Lemma tame_sstart g : tame g -> finitePt (sstart g). Proof. intros [F _]. destruct g; cbn in *; tauto. Qed.
Lemma snoc_of {A} (l : list A) : l <> [] -> exists r g, l = (r ++ [g])%list.
Proof. intros H. destruct (exists_last H) as (r & g & E). eauto. Qed.

Section JoinQ.
Variable Q : seg RNum -> Prop.
Hypothesis QF : forall g, Q g -> finiteSeg g.
Hypothesis QM : forall a b, finitePt a -> finitePt b -> Q (Move a b).
Lemma QS g : Q g -> finitePt (send g). Proof. intros H. apply QF in H. destruct g; cbn in *; tauto. Qed.
Lemma simpleJoinOne_gen p q : p <> [] -> q <> [] -> Forall Q p -> Forall Q q ->
  exists mv, simpleJoinOne p q = (p ++ mv ++ q)%list /\ drawn mv = [] /\ Forall Q mv.
Proof.
  intros Hp Hq Tp Tq. destruct q as [|s r]; [congruence|]. destruct (snoc_of p Hp) as (i & z & ->). unfold simpleJoinOne. rewrite Tail_snoc. rewrite clonePath_finite by (eapply Forall_impl; [exact QF|exact Tq]).
  eexists. split; [reflexivity|]. destruct (ptEquals _ _); [split; [reflexivity|constructor]|]. split; [reflexivity|]. constructor; [|constructor].
  assert (Fs : finitePt (send s)) by (apply QS; inversion Tq; auto). apply Forall_app in Tp. destruct Tp as [_ Tz]. apply Forall_inv in Tz. rewrite clonePt_finite by exact Fs. apply QM; [apply QS; exact Tz|exact Fs].
Qed.
Lemma JoinPaths_gen p ps : Forall (fun q => q <> []) (p :: ps) -> Forall (Forall Q) (p :: ps) ->
  exists q, JoinPaths (p :: ps) = Ok q /\ drawn q = concat (map drawn (p :: ps)) /\ Forall Q q /\
    (exists t, q = (p ++ t)%list) /\ (exists t, q = (t ++ last (p :: ps) [])%list).
Proof.
  intros HN HT. unfold JoinPaths. rewrite clonePath_finite by (eapply Forall_impl; [exact QF|inversion HT; auto]).
  assert (Hb : p <> []) by (inversion HN; auto). assert (Tb : Forall Q p) by (inversion HT; auto).
  assert (Hs : forall base, base <> [] -> Forall Q base -> forall ps, Forall (fun q => q <> []) ps -> Forall (Forall Q) ps ->
    let q := fold_left simpleJoinOne ps base in drawn q = (drawn base ++ concat (map drawn ps))%list /\ Forall Q q /\ (exists t, q = (base ++ t)%list) /\ (exists t, q = (t ++ last (base :: ps) [])%list)).
  2:{ destruct (Hs p Hb Tb ps) as (Q1 & Q2 & Q3 & Q4); [inversion HN; auto|inversion HT; auto|]. eexists. split; [reflexivity|]. auto. }
  clear HN HT Hb Tb p ps. intros base Hb Tb ps. revert base Hb Tb. induction ps as [|x ps IH]; intros base Hb Tb HN HT; cbn [fold_left map concat].
  - rewrite app_nil_r. split; [reflexivity|]. split; [auto|]. split; [exists []; symmetry; apply app_nil_r|exists []; reflexivity].
  - inversion HN as [|? ? Nx Nps]; subst. inversion HT as [|? ? Tx Tps]; subst. destruct (simpleJoinOne_gen base x Hb Nx Tb Tx) as (mv & E & Dm & Tm). rewrite E.
    destruct (IH (base ++ mv ++ x)%list) as (Q1 & Q2 & (t & Q3) & (t' & Q4)); auto.
    { destruct base; [congruence|discriminate]. }
    { apply Forall_app. split; auto. apply Forall_app. auto. }
    split; [rewrite Q1, !drawn_app, Dm, <- app_assoc; reflexivity|]. split; [exact Q2|]. split; [rewrite Q3, <- !app_assoc; eauto|].
    rewrite Q4. destruct ps as [|y ps]; [|exists t'; reflexivity]. exists (t' ++ base ++ mv)%list. cbn [last]. rewrite <- !app_assoc. reflexivity.
Qed.
End JoinQ.
Definition JoinPaths_spec := JoinPaths_gen tame (fun g H => proj1 H) (fun a b Ha Hb => conj (conj Ha Hb) I).
Definition JoinPaths_finite := JoinPaths_gen finiteSeg (fun g H => H) (fun a b Ha Hb => conj Ha Hb).

Section Co.
Variable co : CurveOps RNum.
Hypothesis HB : boxOk co.

Lemma trimBox p : Forall tame p -> exists tl br, BoundingBoxTrimWhitespace co p = Ok (tl, br).
Proof.
  intros HT. destruct (drawn p) eqn:Ed.
  - rewrite (BoundingBoxTrimWhitespace_empty co) by auto. eauto.
  - destruct (BoundingBoxTrimWhitespace_tight co HB p HT) as (tl & br & E' & _); [rewrite Ed; discriminate|]. eauto.
Qed.
Lemma attr_start p s : Forall tame p -> starts p s -> PointPathAttribute co AStartPosition NoSub p = Ok s.
Proof. intros HT (g & r & -> & <-). unfold PointPathAttribute, PathAttribute. destruct (trimBox _ HT) as (tl & br & ->). reflexivity. Qed.
Lemma attr_origin p : Forall tame p -> PointPathAttribute co AOrigin NoSub p = Ok (pnt 0 0).
Proof. intros HT. unfold PointPathAttribute, PathAttribute. destruct (trimBox _ HT) as (tl & br & ->). cbn [bind]. f_equal. apply NewPoint_fin. Qed.
Definition shifted (dx dy : R) (p : path RNum) : path RNum := canon (map (affSeg (diag 1 1 dx dy)) p).
Lemma shifted_drawn dx dy p : drawn (shifted dx dy p) = map (displaced dx dy) (drawn p).
Proof. unfold shifted. rewrite canon_drawn, drawn_map_aff. apply map_ext. apply displaced_aff. Qed.
Lemma shifted_nonempty dx dy p : p <> [] -> shifted dx dy p <> [].
Proof. unfold shifted. destruct p as [|[] r]; [congruence| | |]; discriminate. Qed.
Lemma shifted_starts dx dy p : p <> [] -> starts (shifted dx dy p) (pnt 0 0).
Proof. unfold shifted. destruct p as [|[] r]; intros H; [congruence| | |]; eexists _, _; (split; [reflexivity|]); reflexivity. Qed.
Lemma affSeg_send A g : send (affSeg A g) = affPt A (send g). Proof. destruct g; reflexivity. Qed.
Lemma canon_ends p e : ends p e -> ends (canon p) e.
Proof.
  intros (r & g & -> & <-). destruct r as [|h r]; cbn [app].
  - destruct g; cbn [canon]; [exists [] | eexists [_] | eexists [_]]; eexists; (split; [reflexivity|]); reflexivity.
  - destruct h; cbn [canon]; [exists (Move (pnt 0 0) e :: r) | eexists (_ :: _ :: r) | eexists (_ :: _ :: r)]; exists g; split; reflexivity.
Qed.
Lemma map_ends A p e : ends p e -> ends (map (affSeg A) p) (affPt A e).
Proof. intros (r & g & -> & <-). rewrite map_app. eexists _, _. split; [reflexivity|]. apply affSeg_send. Qed.
Lemma shifted_ends dx dy p x y : ends p (pnt x y) -> ends (shifted dx dy p) (pnt (x + dx) (y + dy)).
Proof.
  intros H. unfold shifted. apply canon_ends. apply (map_ends (diag 1 1 dx dy)) in H. unfold affPt in H. rewrite diag_X, diag_Y, !pnt_X, !pnt_Y, !Rmult_1_l in H. exact H.
Qed.
Lemma MoveT_start p x y : Forall tame p -> starts p (pnt 0 0) -> MoveT co (pnt x y) AStartPosition p = Ok (shifted x y p).
Proof.
  intros HT HS. rewrite (MoveT_shift co _ _ p (pnt 0 0) (finitePt_pnt _ _) (finitePt_pnt _ _) (attr_start p _ HT HS)). rewrite Shift_canon by (apply Forall_tame_finite; exact HT).
  rewrite !pnt_X, !pnt_Y, !Rminus_0_r. reflexivity.
Qed.
End Co.

(** all coordinates are real numbers less than b in absolute value *)
Definition near (b : R) (q : Pt RNum) : Prop := finitePt q /\ Rabs (X q) < b /\ Rabs (Y q) < b.
Definition inside (b : R) (g : seg RNum) : Prop :=
  match g with Move s e | Line s e => near b s /\ near b e | Curve s cs e ce => near b s /\ near b cs /\ near b e /\ near b ce end.
Lemma inside_tame b g : b <= 2 ^ 63 -> inside b g -> tame g.
Proof.
  intros Hb. assert (K : forall q, near b q -> finitePt q /\ small q) by (intros q (F & Q1 & Q2); split; [auto|split; lra]).
  destruct g; cbn [inside]; intros H; decompose [and] H; split; cbn; repeat split; try (apply K; assumption).
Qed.
Lemma inside_mono b c g : b <= c -> inside b g -> inside c g.
Proof. intros Hb. assert (K : forall q, near b q -> near c q) by (intros q (F & Q1 & Q2); split; [auto|split; lra]). destruct g; cbn [inside]; intuition. Qed.
Lemma near_origin b : 0 < b -> near b (pnt 0 0).
Proof. intros H. split; [reflexivity|]. rewrite pnt_X, pnt_Y, Rabs_R0. lra. Qed.
Lemma near_shift b c dx dy q : near b q -> Rabs dx <= c -> Rabs dy <= c -> near (b + c) (affPt (diag 1 1 dx dy) q).
Proof.
  intros (F & Q1 & Q2) H1 H2. split; [apply finitePt_pnt|]. unfold affPt. rewrite diag_X, diag_Y, pnt_X, pnt_Y, !Rmult_1_l. pose proof (Rabs_triang (X q) dx). pose proof (Rabs_triang (Y q) dy). lra.
Qed.
Lemma canon_inside b p : 0 < b -> Forall (inside b) p -> Forall (inside b) (canon p).
Proof.
  intros Hb H. pose proof (near_origin b Hb). destruct p as [|g r]; [auto|]. inversion H as [|? ? Hg Hr]; subst. destruct g; cbn [canon sstart]; constructor; auto; cbn in *; intuition.
Qed.
Lemma shifted_inside b c dx dy p : 0 < b -> Rabs dx <= c -> Rabs dy <= c -> Forall (inside b) p -> Forall (inside (b + c)) (shifted dx dy p).
Proof.
  intros Hb H1 H2 H. apply canon_inside; [pose proof (Rabs_pos dx); lra|]. rewrite Forall_map. eapply Forall_impl; [|exact H]. intros g Hg. pose proof (fun q Q => near_shift b c dx dy q Q H1 H2) as K.
  destruct g; cbn in *; intuition.
Qed.
Lemma Forall_inside_tame b p : b <= 2 ^ 63 -> Forall (inside b) p -> Forall tame p.
Proof. intros Hb. apply Forall_impl. intros g. apply inside_tame. exact Hb. Qed.

Lemma inside_send b g : inside b g -> near b (send g). Proof. destruct g; cbn; tauto. Qed.
Lemma JoinPaths_inside b p ps q : Forall (Forall (inside b)) (p :: ps) -> JoinPaths (p :: ps) = Ok q -> Forall (inside b) q.
Proof.
  assert (Cl : forall p, Forall (inside b) p -> clonePath p = p).
  { intros x H. apply clonePath_finite. eapply Forall_impl; [|exact H]. intros g Hg. destruct g; cbn in *; unfold near in Hg; tauto. }
  intros H. cbn [JoinPaths]. intros E; injection E as <-. inversion H as [|? ? Hp Hps]; subst. rewrite Cl by exact Hp. clear H. revert p Hp. induction ps as [|x ps IH]; intros base Hb; [exact Hb|]. cbn [fold_left].
  inversion Hps as [|? ? Hx Hr]; subst. apply IH; [exact Hr|]. unfold simpleJoinOne. destruct x as [|s r]; [exact Hb|]. rewrite Cl by exact Hx. apply Forall_app. split; [exact Hb|]. apply Forall_app. split; [|exact Hx].
  destruct base as [|b0 base]; [constructor|]. destruct (snoc_of (b0 :: base)) as (i & z & Ez); [discriminate|]. rewrite Ez in *. rewrite Tail_snoc. destruct (ptEquals _ _); [constructor|]. constructor; [|constructor].
  apply Forall_app in Hb. destruct Hb as [_ Hz]. apply Forall_inv in Hz. pose proof (inside_send _ _ (Forall_inv Hx)) as Ns. split; [apply inside_send; exact Hz|]. rewrite clonePt_finite by apply Ns. exact Ns.
Qed.
