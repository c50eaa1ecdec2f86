(** Splitting segments at points and cutting with a knife (C42). *)
From Coq Require Import String List ZArith NArith Bool Lia Reals Lra.
From Coq.Floats Require Import SpecFloat.
From Verif Require Import Num NumLaws FloatNum RealNum PathModel DrawModel SegOps Bezier PathSpec PathProofs GeomSpec BezierProofs PrecisionProofs.
Import ListNotations.

Section Splits.
Context {N : Num}.
Notation F := (T N).
Notation P := (Pt N).
Notation seg := (seg N).

(** the same point up to the sign of zero *)
Definition sameXY (p q : P) : Prop :=
  (px p = px q \/ eqb (px p) (px q) = true) /\ (py p = py q \/ eqb (py p) (py q) = true).
Lemma sameXY_refl p : sameXY p p. Proof. split; left; reflexivity. Qed.

(** same kind of segment *)
Definition sameKind (g h : seg) : Prop :=
  match g, h with Move _ _, Move _ _ | Line _ _, Line _ _ | Curve _ _ _ _, Curve _ _ _ _ => True | _, _ => False end.

(** [l] leads from the start of [g] to its end without a gap, in segments of the same kind *)
Fixpoint leads (a b : P) (l : list seg) : Prop :=
  match l with
  | [] => False
  | [g] => sameXY (sstart g) a /\ sameXY (send g) b
  | g :: r => sameXY (sstart g) a /\ leads (send g) b r
  end.
Definition cutUp (g : seg) (l : list seg) : Prop := leads (sstart g) (send g) l /\ Forall (sameKind g) l.

(** what a CurveOperators implementation must do to split properly *)
Definition splitsWell (co : CurveOps N) : Prop := forall c p l, co_split co c p = Ok l ->
  l = [c] \/ exists a b, l = [a; b] /\ sameXY (c_s a) (c_s c) /\ c_e a = c_s b /\ sameXY (c_e b) (c_e c).

Lemma Split_pieces co g p l : splitsWell co -> Split co g p = Ok l ->
  l = [g] \/ exists a b, l = [a; b] /\ sameXY (sstart a) (sstart g) /\ send a = sstart b /\ sameXY (send b) (send g) /\
    sameKind g a /\ sameKind g b /\ (match g with Curve _ _ _ _ => True | _ => send a = fst p end).
Proof.
  intros W. unfold Split. destruct (_ || _); [intros E; injection E as <-; auto|].
  destruct g as [s e|s e|s cs e ce].
  - intros E; injection E as <-. right. do 2 eexists. split; [reflexivity|]. cbn. repeat split; auto; apply sameXY_refl.
  - intros E; injection E as <-. right. do 2 eexists. split; [reflexivity|]. cbn. repeat split; auto; apply sameXY_refl.
  - destruct (co_split co _ _) as [cl| | |] eqn:Ec; cbn; intros E; inversion E; subst. destruct (W _ _ _ Ec) as [->|(a & b & -> & H1 & H2 & H3)].
    + left. reflexivity.
    + right. exists (crvSeg a), (crvSeg b). cbn. auto 10.
Qed.

Section WithLaws.
Hypothesis L : EqLaws N.

Lemma sim_trans (x y z : F) : (x = y \/ eqb x y = true) -> (y = z \/ eqb y z = true) -> x = z \/ eqb x z = true.
Proof. intros [->|H1] [->|H2]; auto. right. eapply (eqb_trans L); eauto. Qed.
Lemma sim_sym (x y : F) : (x = y \/ eqb x y = true) -> y = x \/ eqb y x = true.
Proof. intros [->|H1]; auto. right. rewrite (eqb_sym L). auto. Qed.
Lemma sameXY_trans p q r : sameXY p q -> sameXY q r -> sameXY p r.
Proof. intros [A B] [C D]. split; eapply sim_trans; eauto. Qed.
Lemma sameXY_sym p q : sameXY p q -> sameXY q p.
Proof. intros [A B]. split; apply sim_sym; auto. Qed.
Lemma sameXY_clone p : sameXY (clonePt p) p.
Proof.
  unfold clonePt, NewPoint, norm0. split; cbn [px py].
  - destruct (eqb (px p) zero) eqn:E; [right; rewrite (eqb_sym L); auto|auto].
  - destruct (eqb (py p) zero) eqn:E; [right; rewrite (eqb_sym L); auto|auto].
Qed.

Lemma leads_from a a' b l : sameXY a a' -> leads a b l -> leads a' b l.
Proof.
  intros H. destruct l as [|g [|h r]]; cbn [leads]; auto; intros [H1 H2]; (split; [|auto]); eapply sameXY_trans; eauto.
Qed.
Lemma leads_to b b' l : sameXY b b' -> forall a, leads a b l -> leads a b' l.
Proof.
  intros H. induction l as [|g [|h r] IH]; cbn [leads]; auto.
  - intros a [H1 H2]. split; auto. eapply sameXY_trans; eauto.
  - intros a [H1 H2]. split; auto. apply IH. exact H2.
Qed.
Lemma leads_app b c l1 l2 : forall a, leads a b l1 -> leads b c l2 -> leads a c (l1 ++ l2).
Proof.
  induction l1 as [|g [|h r] IH]; intros a.
  - intros [].
  - intros [H1 H2] H3. cbn [app]. destruct l2 as [|k m]; [destruct H3|]. cbn [leads].
    split; [auto|]. change (leads (send g) c (k :: m)). eapply leads_from; [apply sameXY_sym; exact H2|exact H3].
  - intros [H1 H2] H3. cbn [app leads]. split; auto. apply (IH (send g)); auto.
Qed.

(** the loop over the pieces inside KnifeCut *)
Definition cutAll (cut : seg -> res (list seg)) : list seg -> res (list seg) :=
  fix loop ss := match ss with
    | [] => Ok []
    | s :: r => bind (cut s) (fun sp => bind (loop r) (fun rest => Ok (sp ++ rest)))
    end.
Lemma KnifeCut_step co dop f g knife : KnifeCut co dop (S f) g knife =
  bind (Intersect co dop knife g) (fun pnts => match pnts with
    | [] => Ok [g]
    | p0 :: _ => bind (Split co g p0) (fun segs => match segs with
        | [_] => Ok [g] | _ => cutAll (fun s => KnifeCut co dop f s knife) segs end) end).
Proof. reflexivity. Qed.

Lemma sameKind_refl (g : seg) : sameKind g g. Proof. destruct g; exact I. Qed.
Lemma sameKind_trans (g h k : seg) : sameKind g h -> sameKind h k -> sameKind g k.
Proof. destruct g, h, k; cbn; tauto. Qed.
Lemma cutUp_self g : cutUp g [g].
Proof. split; [split; apply sameXY_refl|]. constructor; [apply sameKind_refl|constructor]. Qed.

Lemma KnifeCut_cutUp co dop (W : splitsWell co) knife fuel : forall g l, KnifeCut co dop fuel g knife = Ok l -> cutUp g l.
Proof.
  induction fuel as [|f IH]; intros g l; [discriminate|]. rewrite KnifeCut_step.
  destruct (Intersect co dop knife g) as [[|p0 ps]| | |]; cbn [bind]; try discriminate.
  { intros E; injection E as <-. apply cutUp_self. }
  destruct (Split co g p0) as [segs| | |] eqn:ES; cbn [bind]; try discriminate.
  destruct (Split_pieces co g p0 segs W ES) as [->|(a & b & -> & Ha & Hm & Hb & Ka & Kb & _)].
  { intros E; injection E as <-. apply cutUp_self. }
  cbn [cutAll]. destruct (KnifeCut co dop f a knife) as [la| | |] eqn:EA; cbn [bind]; try discriminate.
  destruct (KnifeCut co dop f b knife) as [lb| | |] eqn:EB; cbn [bind]; try discriminate.
  rewrite app_nil_r. intros E; injection E as <-.
  destruct (IH _ _ EA) as [LA FA]. destruct (IH _ _ EB) as [LB FB]. split.
  - apply (leads_app (send a)).
    + eapply leads_from; [exact Ha|exact LA].
    + rewrite Hm. eapply leads_to; [exact Hb|exact LB].
  - apply Forall_app. split.
    + eapply Forall_impl; [|exact FA]. intros x. apply sameKind_trans. exact Ka.
    + eapply Forall_impl; [|exact FB]. intros x. apply sameKind_trans. exact Kb.
Qed.

(** the default curve operators split well, if a parameter that compares equal to zero is recognised as such *)
Lemma BezierOps_splitsWell tr bm fuel :
  (forall (c : crv N) (p : ipt) (t : F), getTfromPoint fuel c p = Ok t -> eqb t zero = true -> PrecisionEquals t zero 7 = true) ->
  eqb (opp one : F) one = false -> ltb (opp one : F) zero = true ->
  splitsWell (BezierOps tr bm fuel).
Proof.
  intros HT H1 H2 c p l. cbn [co_split BezierOps]. unfold opSplit.
  destruct (getTfromPoint fuel c p) as [t| | |] eqn:ET; cbn [bind]; try discriminate.
  destruct (PrecisionEquals t zero 7) eqn:P0; cbn [orb]; [intros E; injection E as <-; auto|].
  destruct (PrecisionEquals t one 7); [intros E; injection E as <-; auto|].
  unfold SplitCurve, splitSectionS. destruct (eqb t zero) eqn:Z; [rewrite (HT _ _ _ ET Z) in P0; discriminate|].
  rewrite H1, H2. unfold hullSplitS, hullSplit. cbn [cv]. intros E; injection E as <-. right. do 2 eexists. split; [reflexivity|].
  cbn [bcC c_s c_e]. split; [apply sameXY_clone|]. split; [reflexivity|apply sameXY_clone].
Qed.
End WithLaws.
End Splits.

(** ** exact arithmetic *)
Local Open Scope R_scope.
Lemma BezierOps_splitsWell_R tr bm fuel : splitsWell (N:=RNum) (BezierOps tr bm fuel).
Proof.
  apply (BezierOps_splitsWell RNum_eq_laws).
  - intros c p t _ E. destruct t as [t| |]; try discriminate. apply Reqb_true in E. subst t. apply (PrecisionEquals_refl (N:=RNum) (Fin 0) 7).
  - apply not_true_iff_false. intros E. apply Reqb_true in E. lra.
  - apply Rltb_true. lra.
Qed.

(** ** binary64: the parameter is never -0 *)
Definition pos_signed (x : spec_float) : Prop :=
  match x with S754_zero s | S754_infinity s | S754_finite s _ _ => s = false | S754_nan => True end.
Lemma round_aux_pos p e m x l : pos_signed (binary_round_aux p e false m x l).
Proof.
  unfold binary_round_aux. destruct (shr_fexp p e m x l) as [mrs e1]. destruct (shr_fexp _ _ _ _ _) as [mrs2 e2].
  destruct (shr_m mrs2); cbn; auto. destruct (e2 <=? e - p)%Z; reflexivity.
Qed.
Lemma round_pos p e m x : pos_signed (binary_round p e false m x).
Proof. unfold binary_round. destruct (shl_align _ _ _). apply round_aux_pos. Qed.
Lemma normalize_pos p e m x s : (0 < m)%Z -> pos_signed (binary_normalize p e m x s).
Proof. unfold binary_normalize. destruct m; intros H; try lia. apply round_pos. Qed.
Lemma add_pos x y : pos_signed x -> pos_signed y -> pos_signed (f_add x y).
Proof.
  unfold f_add, SFadd. destruct x as [s|s| |s m e], y as [s'|s'| |s' m' e']; cbn [pos_signed]; intros H H'; subst; cbn [pos_signed Bool.eqb]; auto.
  apply normalize_pos. unfold cond_Zopp. cbn. unfold shl_align. 
  destruct (Z.min e e' - e)%Z, (Z.min e e' - e')%Z; cbn; lia.
Qed.
Lemma mul_self_pos x : pos_signed (f_mul x x).
Proof.
  unfold f_mul, SFmul. destruct x as [s|s| |s m e]; cbn [pos_signed]; auto; rewrite ?xorb_nilpotent; auto. apply round_aux_pos.
Qed.
Lemma div_pos x y : pos_signed x -> pos_signed y -> pos_signed (f_div x y).
Proof.
  unfold f_div, SFdiv. destruct x as [s|s| |s m e], y as [s'|s'| |s' m' e']; cbn [pos_signed xorb]; intros H H'; subst; cbn [pos_signed xorb]; auto.
  match goal with |- context [let '(_, _) := ?z in _] => destruct z as [[mz ez] lz] end. apply round_aux_pos.
Qed.
Lemma sqrt_pos_signed x : pos_signed x -> pos_signed (f_sqrt x).
Proof.
  unfold f_sqrt, SFsqrt. destruct x as [s|s| |s m e]; cbn [pos_signed]; intros H; subst; cbn [pos_signed]; auto.
  match goal with |- context [let '(_, _) := ?z in _] => destruct z as [[mz ez] lz] end. apply round_aux_pos.
Qed.
Lemma bDistance_pos (p q : Pt FNum) : pos_signed (bDistance p q).
Proof. apply sqrt_pos_signed, add_pos; apply mul_self_pos. Qed.

Lemma closest_loop_pos (l : list (Pt FNum)) : forall i besti best, pos_signed best -> (besti <= i)%nat ->
  pos_signed (fst (Bezier.closest_loop l i besti best)) /\ (snd (Bezier.closest_loop l i besti best) <= i + length l)%nat.
Proof.
  induction l as [|q r IH]; intros i besti best HB HI; cbn [Bezier.closest_loop length]; [cbn; split; [auto|lia]|].
  destruct (ltb _ _).
  - destruct (IH (S i) i _ (bDistance_pos zeroPt q)) as [A B]; [lia|]. split; [exact A|]. lia.
  - destruct (IH (S i) besti best HB) as [A B]; [lia|]. split; [exact A|]. lia.
Qed.
Lemma fineSearch_pos fuel (c : crv FNum) point : forall (t t2 step mdist ft d r : T FNum), pos_signed t -> pos_signed step -> pos_signed ft ->
  fineSearch fuel c point t t2 step mdist ft = Ok (d, r) -> pos_signed r.
Proof.
  induction fuel as [|f IH]; intros t t2 step mdist ft d r Ht Hs Hf; cbn [fineSearch]; [discriminate|].
  destruct (ltb (n:=FNum) t _); [|intros E; injection E as <- <-; auto].
  assert (Hn : pos_signed (add (n:=FNum) t step)) by (apply add_pos; auto).
  destruct (ltb _ mdist); intros E; eapply (IH _ _ _ _ _ _ _ Hn Hs _ E). Unshelve. all: auto.
Qed.
Lemma getLUT_length (c : crv FNum) n : length (getLUT c n) = n.
Proof. unfold getLUT. rewrite map_length, seq_length. reflexivity. Qed.
Lemma nat_pos k : pos_signed (f_ofZ (Z.of_nat k)).
Proof. unfold f_ofZ. destruct k; [reflexivity|]. apply normalize_pos. lia. Qed.

Definition posb (x : spec_float) : bool :=
  match x with S754_zero s | S754_infinity s | S754_finite s _ _ => negb s | S754_nan => true end.
Lemma posb_pos x : posb x = true -> pos_signed x.
Proof. destruct x as [[]|[]| |[] m e]; cbn; auto; discriminate. Qed.
Lemma pred_pos k : (1 <= k <= 100)%nat -> pos_signed (f_div (f_sub (f_ofZ (Z.of_nat k)) (f_ofZ 1)) (f_ofZ 99)).
Proof.
  intros H. apply posb_pos.
  assert (A : forallb (fun k => posb (f_div (f_sub (f_ofZ (Z.of_nat k)) (f_ofZ 1)) (f_ofZ 99))) (seq 1 100) = true) by (vm_compute; reflexivity).
  rewrite forallb_forall in A. apply A. apply in_seq. lia.
Qed.

Lemma getT_pos fuel (c : crv FNum) p t : getTfromPoint fuel c p = Ok t -> t <> S754_zero true.
Proof.
  unfold getTfromPoint. destruct p as [p tp]. cbn [fst snd]. destruct (gtb tp zero) eqn:G.
  { intros E; injection E as <-. intros Z. subst tp. vm_compute in G. discriminate. }
  assert (Q : forall (x : Pt FNum) (d s : T FNum), Project fuel c p = Ok (x, d, s) -> pos_signed s).
  { intros x d s. unfold Project, closest.
    pose proof (getLUT_length c 100) as LL. set (lut := getLUT c 100) in *. clearbody lut.
    assert (P63 : pos_signed (ofZ (n:=FNum) (2 ^ 63))) by (vm_compute; reflexivity).
    destruct (closest_loop_pos lut 0 0 _ P63) as [A B]; [lia|]. rewrite LL in B.
    destruct (Bezier.closest_loop lut 0 0 (ofZ (2 ^ 63))) as [mdist mpos]. cbn [fst snd] in A, B.
    destruct (Nat.eqb mpos 0) eqn:E0; [cbn [orb]; intros E; injection E as <- <- <-; exact A|].
    destruct (Nat.eqb mpos 99) eqn:E9; [cbn [orb]; intros E; injection E as <- <- <-; exact A|]. cbn [orb].
    apply Nat.eqb_neq in E0, E9.
    assert (P1 := pred_pos mpos ltac:(lia)).
    assert (PS : pos_signed (f_div (f_div (f_ofZ 1) (f_ofZ 10)) (f_ofZ 99))) by (vm_compute; reflexivity).
    match goal with |- context [fineSearch ?f ?c ?q ?a ?b ?s ?m ?ft] => destruct (fineSearch f c q a b s m ft) as [[d' ft']| | |] eqn:EF; cbn [bind]; try discriminate end.
    intros E; injection E as <- <- <-. exact (fineSearch_pos _ _ _ _ _ _ _ _ _ _ P1 PS P1 EF). }
  destruct (Project fuel c p) as [[[x d] s]| | |]; cbn [bind]; try discriminate. intros E; injection E as <-.
  specialize (Q _ _ _ eq_refl). intros ->. discriminate Q.
Qed.

Lemma BezierOps_splitsWell_F tr bm fuel : splitsWell (N:=FNum) (BezierOps tr bm fuel).
Proof.
  apply (BezierOps_splitsWell FNum_eq_laws); [|vm_compute; reflexivity|vm_compute; reflexivity].
  intros c p t E Z. apply getT_pos in E. cbn in Z. apply SFeqb_same in Z. destruct Z as [[-> _]|(s & s' & -> & Z)].
  - apply (PrecisionEquals_refl (N:=FNum) zero 7).
  - destruct s; [congruence|]. vm_compute. reflexivity.
Qed.
