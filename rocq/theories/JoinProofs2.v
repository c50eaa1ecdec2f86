(** The whole JoinTransform (C11, C12) and SimpleJoin (C13). *)
From Coq Require Import String List ZArith NArith Bool Lia Permutation.
From Verif Require Import Num NumLaws PathModel DrawModel SegOps TransformsModel PathSpec PathProofs TextProofs CleanupProofs DedupProofs ReorderProofs JoinProofs.
Import ListNotations.

Section JoinP2.
Context {N : Num}.
Notation F := (T N).
Notation P := (Pt N).
Notation seg := (seg N).
Implicit Types (g h : seg) (l p q : list seg).
Variable co : CurveOps N.
Variable dop : Z.

Lemma either_way_length (a d : list seg) : either_way a d -> List.length d = List.length a.
Proof. intros [->| ->]; [reflexivity|]. rewrite rev_length, map_length. reflexivity. Qed.

Lemma regrouped_length groups out : regrouped (N:=N) groups out -> List.length out = List.length (concat groups).
Proof.
  intros (gs & ds & Hp & Hf & ->).
  assert (E : List.length (concat groups) = List.length (concat gs)).
  { clear Hf. induction Hp; cbn; rewrite ?app_length; lia. }
  rewrite E. clear E Hp. induction Hf as [|a d gs ds H Hf IH]; [reflexivity|]. cbn. rewrite !app_length, IH, (either_way_length _ _ H). reflexivity.
Qed.

Lemma filter_drawn_le (f : seg -> bool) l : (List.length (drawn (filter f l)) <= List.length (drawn l))%nat.
Proof.
  induction l as [|g r IH]; [auto|]. cbn [filter]. destruct (f g); rewrite !drawn_cons, !app_length; destruct (isMove g); cbn; lia.
Qed.

Lemma Forall2_length' {A B} (R : A -> B -> Prop) xs ys : Forall2 R xs ys -> List.length xs = List.length ys.
Proof. induction 1; cbn; auto. Qed.

Lemma reduces_le n (a b : list seg) : reduces n a b -> (List.length b <= List.length a)%nat.
Proof. intros H. destruct (reduces_length n a b H) as (k & ->). lia. Qed.

Lemma Dedup_drawn_le prec p q : head_move p -> Dedup prec p = Ok q -> (List.length (drawn q) <= List.length (drawn p))%nat.
Proof.
  intros Hh E. destruct (Dedup_spec prec p Hh) as (q1 & q' & E' & Hr & Hf). rewrite E in E'. inversion E'; subst q'.
  rewrite <- (Forall2_length' _ _ _ Hf). etransitivity; [apply filter_drawn_le|]. eapply reduces_le; exact Hr.
Qed.

Lemma Reorder_drawn_le (L : EqLaws N) prec p q : connected p -> head_move p -> Reorder prec p = Ok q -> (List.length (drawn q) <= List.length (drawn p))%nat.
Proof.
  intros Hc Hh E. destruct (Reorder_spec L prec p Hc Hh) as (r & E' & H). rewrite E in E'. inversion E'; subst r.
  destruct H as [[_ ->]|(out & out' & Hg & Hr & Hf)]; [lia|].
  rewrite <- (Forall2_length' _ _ _ Hf). etransitivity; [apply filter_drawn_le|]. etransitivity; [eapply reduces_le; exact Hr|].
  rewrite (regrouped_length _ _ Hg). destruct (SplitPathOnMove_spec p Hc) as [Hd _]. rewrite Hd. lia.
Qed.

(** the shape a join must have: nothing at all, or one move from the origin to the start followed by strokes only *)
Definition one_stroke_path q : Prop :=
  q = [] \/ exists g r, q = Move origin (sstart g) :: g :: r /\ Forall visible (g :: r).

Lemma NPFS_one_stroke (L : EqLaws N) l : Forall visible l -> one_stroke_path (NewPathFromSegments l).
Proof.
  intros H. destruct H as [|g r Hg Hr]; [left; reflexivity|]. right. exists g, r. split; [|constructor; auto].
  rewrite NPFS_eq. assert (E : isMove g = false) by (apply visible_isMove; exact Hg).
  cbn [HeadMove]. rewrite E. unfold FixHeadMove.
  assert (Hz : eqb (px (NewPoint (N:=N) zero zero)) zero = true /\ eqb (py (NewPoint (N:=N) zero zero)) zero = true).
  { unfold NewPoint, norm0; cbn. rewrite (eqb_refl L zero (zero_not_nan L)). rewrite (eqb_refl L zero (zero_not_nan L)). auto. }
  destruct Hz as [-> ->]. reflexivity.
Qed.

Lemma Tail_In l g : Tail l = Some g -> In g l.
Proof. induction l as [|a [|b r] IH]; [discriminate|cbn; intros E; inversion E; auto|]. intros E. right. apply IH. exact E. Qed.

Lemma closeStep_visible roomy p : (co_terminates co) -> Forall visible p ->
  join_good (closeStep co dop roomy p).
Proof.
  intros Ht Hv. destruct p as [|a r]; [constructor|]. unfold closeStep.
  assert (Hl : visible (last (a :: r) a)) by (apply last_visible; [exact Hv|discriminate]).
  assert (Ha : visible a) by (inversion Hv; auto).
  pose proof (Join_terminates co dop (last (a :: r) a) a Ht) as HT.
  destruct (Join co dop (last (a :: r) a) a) as [closed| | |] eqn:EJ; cbn [bind]; try exact I; [|congruence].
  destruct (Join_visible co dop _ _ _ Hl Ha EJ) as [Hc _].
  destruct (Tail closed) as [t|] eqn:Et; [|exact I].
  assert (Htv : visible t) by (rewrite Forall_forall in Hc; apply Hc, Tail_In; exact Et).
  assert (Hp1 : Forall visible (t :: tl (a :: r))) by (constructor; [exact Htv|inversion Hv; auto]).
  pose proof (removelast_visible _ Hc) as Hrc.
  destruct (TrimLast closed) as [|c0 [|c1 cs]]; cbn [join_good]; auto.
  - apply Forall_app. split; [apply removelast_visible; exact Hp1|]. inversion Hrc; auto.
  - destruct roomy; auto. apply Forall_app. split; [apply removelast_visible; exact Hp1|]. inversion Hrc; auto.
Qed.

Definition good_outcome (r : res (list seg)) : Prop :=
  match r with Ok q => one_stroke_path q | Err => True | Panic => True | OutOfFuel => False end.

Lemma head_move_origin p : starts_with_origin_move p -> head_move p.
Proof. intros (s & e & r & -> & _). reflexivity. Qed.

Lemma JoinT_good (O : OrdLaws N) roomy closePath prec p fuel : co_terminates co -> head_move p -> Forall nan_free_ends p ->
  (2 * List.length (drawn p) + 2 <= fuel)%nat ->
  good_outcome (JoinT co dop fuel roomy closePath prec p).
Proof.
  intros Ht Hh Hn Hf. unfold JoinT. destruct p as [|g0 r0].
  - destruct fuel as [|f]; [cbn in Hf; lia|]. cbn. destruct closePath; cbn; left; reflexivity.
  - destruct (Dedup_spec prec _ Hh) as (x & q1 & Eq1 & _ & _).
    destruct (Dedup_wf (ord_eq O) prec _ q1 Hh ltac:(discriminate) Hn Eq1) as (Ho & Hc & Hd & Hn1).
    pose proof (Dedup_drawn_le prec _ q1 Hh Eq1) as Hle1. rewrite Eq1. cbn [bind].
    pose proof (head_move_origin _ Ho) as Hh1.
    destruct (Reorder_spec (ord_eq O) prec q1 Hc Hh1) as (q2 & Eq2 & _).
    pose proof (Reorder_drawn_le (ord_eq O) prec q1 q2 Hc Hh1 Eq2) as Hle2. rewrite Eq2. cbn [bind].
    assert (HJ : join_good (join co dop fuel prec [] q2)) by (apply (join_terminates co dop O Ht); lia).
    destruct (join co dop fuel prec [] q2) as [q3| | |]; cbn [bind join_good] in *; try exact I; try contradiction.
    destruct closePath; cbn [good_outcome].
    + pose proof (closeStep_visible roomy q3 Ht HJ) as HC.
      destruct (closeStep co dop roomy q3); cbn [bind good_outcome join_good] in *; auto. apply (NPFS_one_stroke (ord_eq O)); exact HC.
    + apply (NPFS_one_stroke (ord_eq O)); exact HJ.
Qed.

(** ** C12: when closing works *)
Definition joins_properly g h : Prop :=
  EqualsPrecision (send g) (sstart h) dop = true \/
  match g, h with
  | Line s1 e1, Line s2 e2 => LineIntersection s1 e1 s2 e2 dop <> None
  | Curve _ _ _ _, Curve _ _ _ _ => True
  | _, _ => False
  end.

Lemma Join_two g h : joins_properly g h ->
  exists a b, Join co dop g h = Ok [a; b] /\ send a = sstart b.
Proof.
  intros H. unfold Join. destruct (EqualsPrecision _ _ _) eqn:E.
  - exists g, (setStart h (send g)). split; [reflexivity|]. rewrite sstart_setStart. reflexivity.
  - destruct H as [H|H]; [congruence|].
    destruct g as [s e|s e|s a e b], h as [s' e'|s' e'|s' a' e' b']; try contradiction.
    + unfold JoinLines. destruct (LineIntersection _ _ _ _ _) as [x|]; [|congruence].
      eexists _, _. split; [reflexivity|]. reflexivity.
    + eexists _, _. split; [reflexivity|]. reflexivity.
Qed.

Lemma closeStep_closes roomy a mid z : joins_properly z a ->
  exists a' z', closeStep co dop roomy (a :: mid ++ [z]) = Ok (a' :: mid ++ [z']) /\ send z' = sstart a'.
Proof.
  intros H. destruct (Join_two z a H) as (x & y & E & Hxy).
  exists y, x. split; [|exact Hxy]. unfold closeStep.
  assert (El : last (a :: mid ++ [z]) a = z) by (change (a :: mid ++ [z]) with ((a :: mid) ++ [z]); apply last_last).
  rewrite El, E. cbn [bind Tail TrimLast removelast]. f_equal.
  change (TrimLast (y :: mid ++ [z]) ++ [x] = y :: mid ++ [x]).
  unfold TrimLast. change (y :: mid ++ [z]) with ((y :: mid) ++ [z]). rewrite removelast_last. reflexivity.
Qed.

(** ** C13: an SVG pen *)
(** what an SVG viewer draws for the text of [l] with the pen at [c]: the text has only end and control
    points, so a stroke starts where the pen is *)
Inductive stroke : Type := SLine (a b : P) | SCurve (a c1 c2 b : P).
Fixpoint strokes (c : P) l : list stroke :=
  match l with
  | [] => []
  | Move _ e :: r => strokes e r
  | Line _ e :: r => SLine c e :: strokes e r
  | Curve _ cs e ce :: r => SCurve c cs ce e :: strokes e r
  end.

Lemma strokes_app c l1 l2 : strokes c (l1 ++ l2) = strokes c l1 ++ strokes (pen c l1) l2.
Proof. revert c; induction l1 as [|[] r IH]; intros c; cbn; auto; f_equal; apply IH. Qed.

(** a path that begins with a move is drawn the same wherever the pen is *)
Lemma strokes_move c c' p : p = [] \/ (exists s e r, p = Move s e :: r) -> strokes c p = strokes c' p.
Proof. intros [->|(s & e & r & ->)]; reflexivity. Qed.

Definition begins_with_move p : Prop := exists s e r, p = Move s e :: r.

Lemma clone_begins p : begins_with_move p -> begins_with_move (clonePath p).
Proof. intros (s & e & r & ->). cbn. eexists _, _, _. reflexivity. Qed.

Lemma simpleJoinOne_strokes c p q : begins_with_move q ->
  strokes c (simpleJoinOne p q) = strokes c p ++ strokes origin (clonePath q).
Proof.
  intros Hq. pose proof (clone_begins q Hq) as Hcq. unfold simpleJoinOne.
  destruct q as [|s r]; [destruct Hq as (? & ? & ? & ?); discriminate|].
  set (cq := clonePath (s :: r)) in *. clearbody cq.
  assert (Hmv : forall x, strokes x match Tail p with
              | None => [] | Some prev => if ptEquals (send prev) (send s) then [] else [Move (send prev) (clonePt (send s))] end = []).
  { intros x. destruct (Tail p) as [t|]; [|reflexivity]. destruct (ptEquals _ _); reflexivity. }
  rewrite !strokes_app, Hmv. cbn [app]. f_equal. apply strokes_move. right. exact Hcq.
Qed.

Lemma JoinPaths_strokes p ps c : Forall begins_with_move ps ->
  exists q, JoinPaths (p :: ps) = Ok q /\
    strokes c q = strokes c (clonePath p) ++ concat (map (fun x => strokes origin (clonePath x)) ps).
Proof.
  intros H. eexists. split; [reflexivity|]. generalize (clonePath p) as base.
  induction H as [|x r Hx Hr IH]; intros base; cbn [fold_left map concat]; [symmetry; apply app_nil_r|].
  rewrite IH, (simpleJoinOne_strokes c base x Hx), <- app_assoc. reflexivity.
Qed.

(** the pen draws the drawn segments of a contiguous path *)
Definition stroke_of g : list stroke :=
  match g with Move _ _ => [] | Line s e => [SLine s e] | Curve s cs e ce => [SCurve s cs ce e] end.
Definition same_stroke (a b : stroke) : Prop :=
  match a, b with
  | SLine s e, SLine s' e' => same_place s s' /\ e = e'
  | SCurve s c1 c2 e, SCurve s' c1' c2' e' => same_place s s' /\ c1 = c1' /\ c2 = c2' /\ e = e'
  | _, _ => False
  end.

Lemma strokes_chain l : forall c, chain c l ->
  Forall2 same_stroke (strokes c l) (concat (map stroke_of l)).
Proof.
  induction l as [|g r IH]; intros c H; [constructor|]. inversion H as [|? ? ? Hs Hr]; subst.
  destruct g; cbn in *; auto; constructor; auto; cbn; auto.
Qed.

End JoinP2.
