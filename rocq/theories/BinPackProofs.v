(** Proofs about the bin packer (C20-C24): structure, for every float type with the laws below. *)
From Coq Require Import List ZArith Bool Lia Reals Lra Permutation.
From Coq.Floats Require Import SpecFloat.
From Flocq Require Import Core Plus_error.
From Flocq.IEEE754 Require BinarySingleNaN.
From Verif Require Import Num NumLaws FloatNum RealNum PrecisionProofs IeeeProofs IeeeArith BinPack.
Import ListNotations.

(** what the packer needs of float arithmetic on finite numbers *)
Record PackLaws (N : Num) : Type := mkPackLaws {
  pk_ord : OrdLaws N;
  fin : T N -> Prop;
  fin_nan : forall x, fin x -> isnan x = false;
  fin_sub : forall a b, fin a -> fin b -> ltb zero b = true -> ltb a b = false -> fin (sub a b);
  sub_gap : forall a b c, fin a -> fin b -> fin c -> ltb zero b = true -> ltb a b = false ->
    ltb (sub c c) (sub a b) = ltb b a /\ ltb (sub a b) (sub c c) = false
}.
Arguments pk_ord {N}. Arguments fin {N}. Arguments fin_nan {N}. Arguments fin_sub {N}. Arguments sub_gap {N}.

Section Structure.
Context {N : Num} {O : Type} (L : PackLaws N).
Notation F := (T N).
Notation rect := (rect N).
Notation bin := (bin N O).

(** the rectangle is at least w x h *)
Definition fits (r : rect) (w h : F) : Prop := leb w (rw r) = true /\ leb h (rh r) = true.
(** in one of the two orientations *)
Definition fits2 (r : rect) (w h : F) : Prop := fits r w h \/ fits r h w.

Definition finR (r : rect) : Prop := fin L (rw r) /\ fin L (rh r).
Definition pos (x : F) : Prop := fin L x /\ ltb zero x = true.

Lemma le_not_lt (x y : F) : isnan x = false -> isnan y = false -> leb x y = negb (ltb y x).
Proof.
  intros Hx Hy. rewrite (leb_ltb_eqb (pk_ord L)). destruct (ltb y x) eqn:E; cbn.
  - destruct (ltb x y) eqn:E1; cbn.
    + pose proof (ltb_trans (pk_ord L) _ _ _ E E1) as C. rewrite (ltb_irrefl (pk_ord L)) in C. discriminate.
    + destruct (eqb x y) eqn:E2; auto. rewrite (ltb_eqb (pk_ord L) y x y E2), (ltb_irrefl (pk_ord L)) in E. discriminate.
  - destruct (ltb x y) eqn:E1; cbn; auto. apply (ltb_trich (pk_ord L)); auto.
Qed.

Lemma tooSmall_fits r w h : finR r -> fin L w -> fin L h -> (tooSmall r w h = false <-> fits r w h).
Proof.
  intros [H1 H2] Hw Hh. unfold tooSmall, fits. rewrite !le_not_lt by (apply (fin_nan L); assumption).
  rewrite orb_false_iff, !negb_true_iff. tauto.
Qed.

Lemma le_lt (a b c : F) : fin L a -> fin L b -> ltb b a = false -> ltb b c = true -> ltb a c = true.
Proof.
  intros Ha Hb H1 H2. destruct (ltb a b) eqn:E; [eapply (ltb_trans (pk_ord L)); eauto|].
  pose proof (ltb_trich (pk_ord L) a b (fin_nan L _ Ha) (fin_nan L _ Hb) E H1) as Q.
  rewrite (eqb_ltb (pk_ord L) c a b Q). exact H2.
Qed.

Lemma eqb_refl_fin (a : F) : fin L a -> eqb a a = true.
Proof. intros H. apply (eqb_refl (ord_eq (pk_ord L))). apply (fin_nan L). exact H. Qed.

Lemma pos_test w h : pos w -> pos h -> eqb w zero || eqb h zero || isnan w || isnan h = false.
Proof.
  intros [Fw Pw] [Fh Ph]. rewrite (fin_nan L _ Fw), (fin_nan L _ Fh).
  assert (Z : forall x : F, ltb zero x = true -> eqb x zero = false).
  { intros x Hx. destruct (eqb x zero) eqn:E; auto. rewrite (ltb_eqb (pk_ord L) zero _ _ E), (ltb_irrefl (pk_ord L)) in Hx. discriminate. }
  rewrite !Z by assumption. reflexivity.
Qed.

(** ** insertion into a free rectangle that is already chosen orientation-wise *)
(** the size of the result: as requested, up to the sign of zero (==) *)
Definition sized (r : rect) (w h : F) : Prop := eqb (rw r) w = true /\ eqb (rh r) h = true.

(** all rectangles of a tree have finite sizes *)
Fixpoint binFin (b : bin) : Prop :=
  match b with Leaf r _ _ => finR r | Node _ _ l r => binFin l /\ binFin r end.

Lemma leaf_exact f r rot o w h (rt := tooSmall r w h) (w' := if rt then h else w) (h' := if rt then w else h) :
  pos w -> pos h -> (rt = true -> tooSmall r w' h' = false) -> eqb (rh r) h' && eqb (rw r) w' = true ->
  leafInsert (S f) r rot None o w h = Ok (Some (r, rot), Leaf r rot (Some o) : bin).
Proof.
  intros Pw Ph Ht He. cbn [leafInsert]. rewrite (pos_test w h Pw Ph). fold rt w' h'.
  assert (E : rt && tooSmall r w' h' = false) by (destruct rt; [rewrite Ht|]; reflexivity).
  rewrite E, He. reflexivity.
Qed.

Lemma leaf_split f r rot o w h (rt := tooSmall r w h) (w' := if rt then h else w) (h' := if rt then w else h) :
  pos w -> pos h -> (rt = true -> tooSmall r w' h' = false) -> eqb (rh r) h' && eqb (rw r) w' = false ->
  leafInsert (S f) r rot None o w h =
    let '(lr, rr) :=
      if gtb (sub (rw r) w') (sub (rh r) h')
      then (mkRect (rx r) (ry r) w' (rh r), mkRect (add (rx r) w') (ry r) (sub (rw r) w') (rh r))
      else (mkRect (rx r) (ry r) (rw r) h', mkRect (rx r) (add (ry r) h') (rw r) (sub (rh r) h')) in
    bind (leafInsert f lr rt None o w h) (fun '(ans, l) => Ok (ans, Node r rot l (Leaf rr rt None) : bin)).
Proof.
  intros Pw Ph Ht He. cbn [leafInsert]. rewrite (pos_test w h Pw Ph). fold rt w' h'.
  assert (E : rt && tooSmall r w' h' = false) by (destruct rt; [rewrite Ht|]; reflexivity).
  rewrite E, He. reflexivity.
Qed.

(** orientation chosen in a left child equals the parent's *)
Lemma orient_child r r' w h : finR r -> finR r' -> pos w -> pos h ->
  let rt := tooSmall r w h in
  let w' := if rt then h else w in let h' := if rt then w else h in
  tooSmall r w' h' = false ->
  (r' = mkRect (rx r) (ry r) w' (rh r) \/ r' = mkRect (rx r) (ry r) (rw r) h' \/ r' = mkRect (rx r) (ry r) w' h') ->
  tooSmall r' w h = rt /\ tooSmall r' w' h' = false.
Proof.
  intros [Fw Fh] _ [Gw Pw] [Gh Ph] rt w' h' Hf Hr. unfold tooSmall in *.
  assert (I := ltb_irrefl (pk_ord L)).
  assert (Hf2 : ltb (rh r') h' || ltb (rw r') w' = false).
  { apply orb_false_iff in Hf as [H1 H2]. destruct Hr as [->|[->| ->]]; cbn [rw rh]; rewrite ?H1, ?H2, ?I; reflexivity. }
  split; [|exact Hf2]. destruct rt eqn:E; subst w' h'; [|exact Hf2].
  subst rt. apply orb_false_iff in Hf as [H1 H2].
  (* rotated: w' = h, h' = w *)
  apply orb_true_iff in E as [E|E].
  - assert (ltb w h = true) by (eapply le_lt; [exact Gw|exact Fh|exact H1|exact E]).
    destruct Hr as [->|[->| ->]]; cbn [rw rh]; apply orb_true_iff; auto.
  - assert (ltb h w = true) by (eapply le_lt; [exact Gh|exact Fw|exact H2|exact E]).
    destruct Hr as [->|[->| ->]]; cbn [rw rh]; apply orb_true_iff; auto.
Qed.

Lemma leafInsert_some_aux r rot o w h f : finR r -> pos w -> pos h ->
  let rt := tooSmall r w h in
  let w' := if rt then h else w in let h' := if rt then w else h in
  tooSmall r w' h' = false ->
  exists r' rot' b', leafInsert (S (S (S f))) r rot None o w h = Ok (Some (r', rot'), b') /\
    rx r' = rx r /\ ry r' = ry r /\ sized r' w' h' /\ binFin b' /\
    (rot' = rt \/ (rot' = rot /\ r' = r)).
Proof.
  intros Fr Pw Ph rt w' h' Hf. destruct Fr as [Fw Fh]. assert (Fr : finR r) by (split; assumption).
  assert (Gw' : fin L w' /\ ltb zero w' = true) by (destruct Pw, Ph; unfold w'; destruct rt; auto).
  assert (Gh' : fin L h' /\ ltb zero h' = true) by (destruct Pw, Ph; unfold h'; destruct rt; auto).
  destruct Gw' as [Gw Zw], Gh' as [Gh Zh].
  pose proof Hf as Hf'. unfold tooSmall in Hf'. apply orb_false_iff in Hf' as [H1 H2].
  destruct (eqb (rh r) h' && eqb (rw r) w') eqn:E0.
  { exists r, rot, (Leaf r rot (Some o)). rewrite leaf_exact; auto.
    apply andb_prop in E0 as [E1 E2]. repeat split; auto. }
  pose proof (leaf_split (S (S f)) r rot o w h Pw Ph) as LS. fold rt w' h' in LS. rewrite LS by auto. clear LS.
  destruct (sub_gap L (rw r) w' h' Fw Gw Gh Zw H2) as [Gap1 Gap1'].
  destruct (sub_gap L (rh r) h' w' Fh Gh Gw Zh H1) as [Gap2 Gap2'].
  destruct (gtb (sub (rw r) w') (sub (rh r) h')) eqn:Eg.
  - (* vertical *)
    set (lr := mkRect (rx r) (ry r) w' (rh r)).
    assert (Flr : finR lr) by (split; assumption).
    destruct (orient_child r lr w h Fr Flr Pw Ph Hf ltac:(left; reflexivity)) as [O1 O2]. fold rt w' h' in O1, O2.
    assert (Frr : finR (mkRect (add (rx r) w') (ry r) (sub (rw r) w') (rh r))) by (split; cbn; [apply (fin_sub L); auto|assumption]).
    destruct (eqb (rh lr) h' && eqb (rw lr) w') eqn:E1.
    + pose proof (leaf_exact (S f) lr rt o w h Pw Ph) as LE. rewrite O1 in LE. fold w' h' in LE. rewrite LE by auto. clear LE.
      cbn [bind]. eexists lr, rt, _. split; [reflexivity|].
      apply andb_prop in E1 as [E1 E2]. repeat split; auto; try apply Frr.
    + pose proof (leaf_split (S f) lr rt o w h Pw Ph) as LS. rewrite O1 in LS. fold w' h' in LS. rewrite LS by auto. clear LS.
      unfold gtb. cbn [lr rw rh]. rewrite Gap2'.
      set (r2 := mkRect (rx r) (ry r) w' h').
      assert (Fr2 : finR r2) by (split; assumption).
      destruct (orient_child r r2 w h Fr Fr2 Pw Ph Hf ltac:(right; right; reflexivity)) as [Q1 Q2]. fold rt w' h' in Q1, Q2.
      pose proof (leaf_exact f r2 rt o w h Pw Ph) as LE. rewrite Q1 in LE. fold w' h' in LE. unfold lr; cbn [rx ry rw rh].
      fold r2. rewrite LE; auto; [|unfold r2; cbn; rewrite !eqb_refl_fin by assumption; reflexivity].
      cbn [bind]. eexists r2, rt, _. split; [reflexivity|]. unfold r2, sized; cbn. rewrite !eqb_refl_fin by assumption.
      split; [reflexivity|]. split; [reflexivity|]. split; [auto|]. split; [|auto].
      repeat split; cbn; auto; try apply Frr; apply (fin_sub L); auto.
  - (* horizontal *)
    set (lr := mkRect (rx r) (ry r) (rw r) h').
    assert (Flr : finR lr) by (split; assumption).
    destruct (orient_child r lr w h Fr Flr Pw Ph Hf ltac:(right; left; reflexivity)) as [O1 O2]. fold rt w' h' in O1, O2.
    assert (Frr : finR (mkRect (rx r) (add (ry r) h') (rw r) (sub (rh r) h'))) by (split; cbn; [assumption|apply (fin_sub L); auto]).
    destruct (eqb (rh lr) h' && eqb (rw lr) w') eqn:E1.
    + pose proof (leaf_exact (S f) lr rt o w h Pw Ph) as LE. rewrite O1 in LE. fold w' h' in LE. rewrite LE by auto. clear LE.
      cbn [bind]. eexists lr, rt, _. split; [reflexivity|].
      apply andb_prop in E1 as [E1 E2]. repeat split; auto; try apply Frr.
    + pose proof (leaf_split (S f) lr rt o w h Pw Ph) as LS. rewrite O1 in LS. fold w' h' in LS. rewrite LS by auto. clear LS.
      cbn [lr rw rh] in E1. rewrite (eqb_refl_fin h' Gh) in E1. cbn [andb] in E1.
      unfold gtb. cbn [lr rw rh]. rewrite Gap1.
      assert (Lt : ltb w' (rw r) = true).
      { destruct (ltb w' (rw r)) eqn:E; auto. rewrite (eqb_sym (ord_eq (pk_ord L))) in E1.
        rewrite (ltb_trich (pk_ord L) _ _ (fin_nan L _ Gw) (fin_nan L _ Fw) E H2) in E1. discriminate. }
      rewrite Lt.
      set (r2 := mkRect (rx r) (ry r) w' h').
      assert (Fr2 : finR r2) by (split; assumption).
      destruct (orient_child r r2 w h Fr Fr2 Pw Ph Hf ltac:(right; right; reflexivity)) as [Q1 Q2]. fold rt w' h' in Q1, Q2.
      pose proof (leaf_exact f r2 rt o w h Pw Ph) as LE. rewrite Q1 in LE. fold w' h' in LE. unfold lr; cbn [rx ry rw rh].
      fold r2. rewrite LE; auto; [|unfold r2; cbn; rewrite !eqb_refl_fin by assumption; reflexivity].
      cbn [bind]. eexists r2, rt, _. split; [reflexivity|]. unfold r2, sized; cbn. rewrite !eqb_refl_fin by assumption.
      split; [reflexivity|]. split; [reflexivity|]. split; [auto|]. split; [|auto].
      repeat split; cbn; auto; try apply Frr; apply (fin_sub L); auto.
Qed.

(** the flag is right, or the free rectangle [e] was used as it is *)
Definition flag_ok (e r' : rect) (rot' : bool) (w h : F) : Prop :=
  r' = e \/ (rot' = false /\ sized r' w h /\ fits e w h) \/ (rot' = true /\ sized r' h w /\ ~ fits e w h).

Lemma leafInsert_some r rot o w h f : finR r -> pos w -> pos h -> fits2 r w h ->
  exists r' rot' b', leafInsert (S (S (S f))) r rot None o w h = Ok (Some (r', rot'), b') /\
    rx r' = rx r /\ ry r' = ry r /\ (sized r' w h \/ sized r' h w) /\ binFin b' /\ flag_ok r r' rot' w h.
Proof.
  intros Fr Pw Ph H2. assert (Fw : fin L w) by apply Pw. assert (Fh : fin L h) by apply Ph.
  destruct (leafInsert_some_aux r rot o w h f Fr Pw Ph) as (r' & rot' & b' & E & Hx & Hy & Hs & Hb & Hr).
  - destruct (tooSmall r w h) eqn:E; [|exact E]. apply tooSmall_fits; auto.
    destruct H2 as [H2|H2]; auto. apply tooSmall_fits in H2; auto. congruence.
  - exists r', rot', b'. split; [exact E|]. split; [exact Hx|]. split; [exact Hy|]. split; [destruct (tooSmall r w h); auto|].
    split; [exact Hb|].
    destruct Hr as [Hr|[_ Hr]]; [|left; exact Hr]. right. pose proof (tooSmall_fits r w h Fr Fw Fh) as TF.
    destruct (tooSmall r w h).
    + right. split; [exact Hr|]. split; [exact Hs|]. intros C. apply TF in C. discriminate.
    + left. split; [exact Hr|]. split; [exact Hs|]. apply TF. reflexivity.
Qed.

Lemma leafInsert_none r rot (obj : option O) o w h f : finR r -> pos w -> pos h -> (obj <> None \/ ~ fits2 r w h) ->
  leafInsert (S f) r rot obj o w h = Ok (None, Leaf r rot obj : bin).
Proof.
  intros Fr Pw Ph H. assert (Fw : fin L w) by apply Pw. assert (Fh : fin L h) by apply Ph.
  cbn [leafInsert]. rewrite (pos_test w h Pw Ph).
  destruct (tooSmall r w h) eqn:E1; cbn [andb].
  - destruct (tooSmall r h w) eqn:E2; [reflexivity|]. destruct obj; [reflexivity|].
    exfalso. destruct H as [H|H]; [congruence|]. apply H. right. apply tooSmall_fits; auto.
  - destruct obj; [reflexivity|]. exfalso. destruct H as [H|H]; [congruence|]. apply H. left. apply tooSmall_fits; auto.
Qed.

(** ** the whole tree: first free rectangle, from left to right, that is large enough *)
Lemma fits_dec r w h : {fits r w h} + {~ fits r w h}.
Proof. unfold fits. destruct (leb w (rw r)), (leb h (rh r)); [left; auto|right; intros []; discriminate..]. Qed.
Lemma fits2_dec r w h : {fits2 r w h} + {~ fits2 r w h}.
Proof. unfold fits2. destruct (fits_dec r w h), (fits_dec r h w); tauto. Qed.

Lemma Insert_spec o w h f : pos w -> pos h -> forall b, binFin b ->
  (exists r' rot' b', Insert (S (S (S f))) b o w h = Ok (Some (r', rot'), b') /\ binFin b' /\
     (sized r' w h \/ sized r' h w) /\
     exists l1 e l2, getEmpties b = l1 ++ e :: l2 /\ Forall (fun x => ~ fits2 x w h) l1 /\ fits2 e w h /\ rx r' = rx e /\ ry r' = ry e /\ flag_ok e r' rot' w h) \/
  (Insert (S (S (S f))) b o w h = Ok (None, b) /\ Forall (fun x => ~ fits2 x w h) (getEmpties b)).
Proof.
  intros Pw Ph. induction b as [r rot obj|r rot l IHl rr IHr]; intros Hb.
  - cbn [Insert binFin] in *. destruct obj as [q|].
    + right. split; [apply leafInsert_none; auto; left; discriminate|constructor].
    + destruct (fits2_dec r w h) as [Hf|Hf].
      * left. destruct (leafInsert_some r rot o w h f Hb Pw Ph Hf) as (r' & rot' & b' & E & Hx & Hy & Hs & Hb' & Hfl).
        exists r', rot', b'. repeat split; auto. exists [], r, []. repeat split; auto.
      * right. split; [apply leafInsert_none; auto|]. cbn. constructor; auto.
  - cbn [Insert binFin getEmpties] in *. destruct Hb as [Hl Hr].
    destruct (IHl Hl) as [(r' & rot' & b' & E & Hb' & Hs & l1 & e & l2 & El & F1 & Fe & Hx & Hy & Hfl)|[E Fl]].
    + left. rewrite E. cbn [bind]. exists r', rot', (Node r rot b' rr). repeat split; auto.
      exists l1, e, (l2 ++ getEmpties rr). rewrite El, <- app_assoc. repeat split; auto.
    + rewrite E. cbn [bind]. destruct (IHr Hr) as [(r' & rot' & b' & E' & Hb' & Hs & l1 & e & l2 & El & F1 & Fe & Hx & Hy & Hfl)|[E' Fr]].
      * left. rewrite E'. cbn [bind]. exists r', rot', (Node r rot l b'). repeat split; auto.
        exists (getEmpties l ++ l1), e, l2. rewrite El, <- app_assoc. repeat split; auto. apply Forall_app; auto.
      * right. rewrite E'. cbn [bind]. split; [reflexivity|]. apply Forall_app; auto.
Qed.

(** reachable containers *)
Definition reqOk (q : O * F * F) : Prop := let '(_, w, h) := q in pos w /\ pos h.
Lemma inserts_fin f reqs : Forall reqOk reqs -> forall b, binFin b ->
  exists ans b', inserts (S (S (S f))) b reqs = Ok (ans, b') /\ binFin b' /\ length ans = length reqs.
Proof.
  induction 1 as [|[[o w] h] rest [Pw Ph] Hr IH]; intros b Hb.
  - exists [], b. auto.
  - cbn [inserts]. destruct (Insert_spec o w h f Pw Ph b Hb) as [(r' & rot' & b' & E & Hb' & _)|[E _]]; rewrite E; cbn [bind].
    + destruct (IH b' Hb') as (ans & b2 & E2 & H2 & Hl). rewrite E2. cbn [bind]. exists (Some (r', rot') :: ans), b2. cbn. auto.
    + destruct (IH b Hb) as (ans & b2 & E2 & H2 & Hl). rewrite E2. cbn [bind]. exists (None :: ans), b2. cbn. auto.
Qed.
End Structure.

(** ** the laws hold for exact arithmetic and for binary64 *)
Definition RNum_pack : PackLaws RNum.
Proof.
  refine (mkPackLaws RNum RNum_ord_laws (fun x => exists r, x = Fin r) _ _ _).
  - intros x [r ->]. reflexivity.
  - intros a b [ra ->] [rb ->] _ _. cbn. eauto.
  - intros a b c [ra ->] [rb ->] [rc ->] H1 H2. cbn in *. apply Rltb_false in H2.
    split; [|apply Rltb_false; lra]. destruct (Rltb_spec rb ra); [apply Rltb_true|apply Rltb_false]; lra.
Defined.

Local Open Scope R_scope.
Lemma rnd_sub_bound a b : gofin a -> gofin b -> 0 <= fval b <= fval a -> Rabs (rnd (fval a - fval b)) < bpow radix2 1024.
Proof.
  intros Ha Hb H. rewrite Rabs_right.
  - apply Rle_lt_trans with (fval a).
    + rewrite <- (rnd_format a Ha). apply round_le; [exact fexp64_valid|apply valid_rnd_N|]. rewrite (rnd_format a Ha). lra.
    + pose proof (fval_bound a (proj1 Ha)) as B. rewrite Rabs_right in B by lra.
      pose proof (bpow_gt_0 radix2 971). lra.
  - apply Rle_ge. rewrite <- (round_0 radix2 fexp64 (BinarySingleNaN.round_mode BinarySingleNaN.mode_NE)).
    apply round_le; [exact fexp64_valid|apply valid_rnd_N|lra].
Qed.

Lemma rnd_sub_sign a b : gofin a -> gofin b -> fval b < fval a -> 0 < rnd (fval a - fval b).
Proof.
  intros Ha Hb H.
  assert (H0 : 0 <= rnd (fval a - fval b)).
  { rewrite <- (round_0 radix2 fexp64 (BinarySingleNaN.round_mode BinarySingleNaN.mode_NE)).
    apply round_le; [exact fexp64_valid|apply valid_rnd_N|lra]. }
  assert (H1 : rnd (fval a - fval b) <> 0); [|lra].
  unfold Rminus. apply round_plus_neq_0; [exact fexp64_valid|apply monotone_exp_not_FTZ; [exact fexp64_valid|exact fexp64_mono]|apply valid_rnd_N|
    apply fval_format; apply Ha|apply generic_format_opp, fval_format; apply Hb|lra].
Qed.

Definition FNum_pack : PackLaws FNum.
Proof.
  assert (Z0 : forall b, gofin b -> ltb (n:=FNum) zero b = true -> 0 < fval b).
  { intros b Hb H. change (ltb (n:=FNum) zero b) with (SFltb (S754_zero false) b) in H.
    rewrite (f_ltb_correct _ _ gofin_zero Hb) in H. destruct (Rlt_bool_spec (fval (S754_zero false)) (fval b)); [assumption|discriminate]. }
  assert (Z1 : forall a b, gofin a -> gofin b -> ltb (n:=FNum) a b = false -> fval b <= fval a).
  { intros a b Ha Hb H. change (ltb (n:=FNum) a b) with (SFltb a b) in H.
    rewrite (f_ltb_correct _ _ Ha Hb) in H. destruct (Rlt_bool_spec (fval a) (fval b)); [discriminate|assumption]. }
  assert (Z2 : forall c, gofin c -> gofin (f_sub c c) /\ fval (f_sub c c) = 0).
  { intros c Hc. destruct (f_sub_correct c c Hc Hc) as [G E].
    - rewrite Rminus_diag_eq, round_0, Rabs_R0 by (reflexivity || apply valid_rnd_N). apply bpow_gt_0.
    - split; auto. rewrite E, Rminus_diag_eq, round_0 by (reflexivity || apply valid_rnd_N). reflexivity. }
  refine (mkPackLaws FNum FNum_ord_laws gofin _ _ _).
  - intros x [_ H]. destruct x; try discriminate; reflexivity.
  - intros a b Ha Hb H1 H2. apply f_sub_correct; auto. apply rnd_sub_bound; auto. split; [apply Rlt_le; auto|auto].
  - intros a b c Ha Hb Hc H1 H2. destruct (Z2 c Hc) as [Gc Ec].
    assert (Hle : 0 <= fval b <= fval a) by (split; [apply Rlt_le; auto|auto]).
    destruct (f_sub_correct a b Ha Hb (rnd_sub_bound a b Ha Hb Hle)) as [Gd Ed].
    change (SFltb (f_sub c c) (f_sub a b) = SFltb b a /\ SFltb (f_sub a b) (f_sub c c) = false).
    rewrite !f_ltb_correct by assumption. rewrite Ec, Ed. split.
    + destruct (Rlt_bool_spec (fval b) (fval a)) as [H|H].
      * apply Rlt_bool_true. apply rnd_sub_sign; auto.
      * replace (fval a - fval b) with 0 by lra. rewrite round_0 by apply valid_rnd_N. apply Rlt_bool_false. lra.
    + apply Rlt_bool_false. rewrite <- (round_0 radix2 fexp64 (BinarySingleNaN.round_mode BinarySingleNaN.mode_NE)).
      apply round_le; [exact fexp64_valid|apply valid_rnd_N|lra].
Defined.
