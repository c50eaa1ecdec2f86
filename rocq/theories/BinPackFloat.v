(** The bin packer in binary64: coordinates are rounded, so that packed parts lie apart and inside up to the rounding (C20, C23). *)
From Coq Require Import List ZArith Bool Lia Reals Lra Permutation.
From Coq.Floats Require Import SpecFloat.
From Flocq Require Import Core.
From Flocq.IEEE754 Require BinarySingleNaN.
From Verif Require Import Num NumLaws FloatNum RealNum PrecisionProofs IeeeProofs IeeeArith RelError BinPack BinPackProofs BinPackGeom.
Import BinarySingleNaN ListNotations.
Local Open Scope R_scope.

Notation rectF := (rect FNum).
Notation "# x" := (fval x) (at level 5, format "# x").

(** ** one rounding of a number up to 2^e changes it by at most 2^(e - 54) *)
Definition half_ulp (e : Z) : R := bpow radix2 (e - 54).
Lemma half_ulp_pos e : 0 < half_ulp e. Proof. apply bpow_gt_0. Qed.
Lemma rnd_near e z : (-1020 <= e <= 1023)%Z -> Rabs z <= bpow radix2 e -> Rabs (rnd z - z) <= half_ulp e.
Proof.
  intros He Hz. destruct (Rle_lt_or_eq_dec _ _ Hz) as [L|E].
  - eapply Rle_trans; [apply error_le_half_ulp; typeclasses eauto|]. unfold half_ulp. replace (e - 54)%Z with (-1 + (e - 53))%Z by lia. rewrite bpow_plus. change (bpow radix2 (-1)) with (/ 2). apply Rmult_le_compat_l; [lra|].
    destruct (Req_dec z 0) as [->|N0].
    + unfold ulp. rewrite Req_bool_true by reflexivity. destruct (negligible_exp_FLT (-1074) 53) as (n & En & Hn). change fexp64 with (FLT_exp (-1074) 53). rewrite En. apply bpow_le. unfold FLT_exp. lia.
    + rewrite ulp_neq_0 by exact N0. apply bpow_le. unfold cexp. change (FLT_exp (-1074) 53 (mag radix2 z) <= e - 53)%Z. unfold FLT_exp. assert (mag radix2 z <= e)%Z by (apply mag_le_bpow; assumption). lia.
  - assert (G : generic_format radix2 fexp64 z).
    { assert (B : generic_format radix2 fexp64 (bpow radix2 e)) by (apply generic_format_bpow; change (FLT_exp (-1074) 53 (e + 1) <= e)%Z; unfold FLT_exp; lia).
      unfold Rabs in E. destruct (Rcase_abs z); [replace z with (- bpow radix2 e) by lra; apply generic_format_opp; exact B|rewrite E; exact B]. }
    rewrite round_generic by (try exact G; apply valid_rnd_N). rewrite Rminus_diag_eq, Rabs_R0 by reflexivity. apply Rlt_le, half_ulp_pos.
Qed.
Lemma rnd_fits e z : (-1020 <= e <= 1023)%Z -> Rabs z <= bpow radix2 e -> Rabs (rnd z) < bpow radix2 1024.
Proof. intros He Hz. apply rnd_not_big. eapply Rle_trans; [exact Hz|]. apply bpow_le. lia. Qed.
Lemma rnd_mono a b : a <= b -> rnd a <= rnd b. Proof. intros H. apply round_le; [exact fexp64_valid|apply valid_rnd_N|exact H]. Qed.

Lemma add_near e a b : (-1020 <= e <= 1023)%Z -> gofin a -> gofin b -> Rabs (#a + #b) <= bpow radix2 e -> gofin (@add FNum a b) /\ Rabs (#(@add FNum a b) - (#a + #b)) <= half_ulp e /\ #(@add FNum a b) = rnd (#a + #b).
Proof. intros He Ga Gb H. destruct (f_add_correct a b Ga Gb (rnd_fits e _ He H)) as [G E]. split; [exact G|]. change (@add FNum a b) with (f_add a b). rewrite E. split; [apply rnd_near; assumption|reflexivity]. Qed.
Lemma sub_near e a b : (-1020 <= e <= 1023)%Z -> gofin a -> gofin b -> Rabs (#a - #b) <= bpow radix2 e -> gofin (@sub FNum a b) /\ Rabs (#(@sub FNum a b) - (#a - #b)) <= half_ulp e /\ #(@sub FNum a b) = rnd (#a - #b).
Proof. intros He Ga Gb H. destruct (f_sub_correct a b Ga Gb (rnd_fits e _ He H)) as [G E]. split; [exact G|]. change (@sub FNum a b) with (f_sub a b). rewrite E. split; [apply rnd_near; assumption|reflexivity]. Qed.
Lemma ltb_R a b : gofin a -> gofin b -> @ltb FNum a b = Rlt_bool (#a) (#b). Proof. apply f_ltb_correct. Qed.
Lemma eqb_R a b : gofin a -> gofin b -> @eqb FNum a b = true -> #a = #b.
Proof.
  intros Ga Gb H. destruct (gofin_B a Ga) as (x & -> & Fx), (gofin_B b Gb) as (y & -> & Fy). rewrite !fval_B. 
  pose proof (Beqb_correct f64_prec f64_emax x y Fx Fy) as E. change (@eqb FNum (B2SF x) (B2SF y)) with (SFeqb (B2SF x) (B2SF y)) in H. unfold Beqb in E. rewrite H in E. symmetry in E. destruct (Req_bool_spec (B2R x) (B2R y)); [assumption|discriminate].
Qed.
Lemma abs_le x m : Rabs x <= m -> - m <= x <= m.
Proof. intros H. pose proof (Rle_abs x). pose proof (Rle_abs (- x)) as N. rewrite Rabs_Ropp in N. lra. Qed.

(** ** specification *)
(** [a] lies inside [c], up to [t] at its right and lower edge *)
Definition withinF (t : R) (a c : rectF) : Prop :=
  #(rx c) <= #(rx a) /\ #(rx a) + #(rw a) <= #(rx c) + #(rw c) + t /\ #(ry c) <= #(ry a) /\ #(ry a) + #(rh a) <= #(ry c) + #(rh c) + t.
(** [a] and [b] are side by side or one above the other, up to an overlap of [t] *)
Definition apartF (t : R) (a b : rectF) : Prop :=
  #(rx a) + #(rw a) <= #(rx b) + t \/ #(rx b) + #(rw b) <= #(rx a) + t \/ #(ry a) + #(rh a) <= #(ry b) + t \/ #(ry b) + #(rh b) <= #(ry a) + t.

Section Packing.
Context {O : Type}.
Notation bin := (bin FNum O).
Variable e : Z.
Hypothesis He : (-1020 <= e <= 1023)%Z.
Notation d := (half_ulp e).

(** a rectangle of finite numbers, d times [2 k] or less over a sheet [X] wide and [Y] high *)
Definition okR (X Y : R) (k : nat) (r : rectF) : Prop :=
  gofin (rx r) /\ gofin (ry r) /\ gofin (rw r) /\ gofin (rh r) /\ 0 <= #(rx r) /\ 0 <= #(ry r) /\ 0 <= #(rw r) /\ 0 <= #(rh r) /\
  #(rx r) + #(rw r) <= X + 2 * INR k * d /\ #(ry r) + #(rh r) <= Y + 2 * INR k * d.
Definition tilesF (r l rr : rectF) : Prop := withinF 0 l r /\ withinF (2 * d) rr r /\ (#(rx l) + #(rw l) <= #(rx rr) + d \/ #(ry l) + #(rh l) <= #(ry rr) + d).
Fixpoint goodF (X Y : R) (k : nat) (b : bin) : Prop :=
  match b with
  | Leaf r _ _ => okR X Y k r
  | Node r _ l rr => okR X Y k r /\ tilesF r (binRect l) (binRect rr) /\ goodF X Y k l /\ goodF X Y (S k) rr
  end.
Fixpoint occF (b : bin) : list rectF :=
  match b with Leaf r _ (Some _) => [r] | Leaf _ _ None => [] | Node _ _ l r => occF l ++ occF r end.
(** how often one goes to the right or down in the tree *)
Fixpoint deep (b : bin) : nat := match b with Leaf _ _ _ => 0 | Node _ _ l r => Nat.max (deep l) (S (deep r)) end.

Lemma goodF_ok X Y k b : goodF X Y k b -> okR X Y k (binRect b).
Proof. destruct b; cbn; tauto. Qed.
Lemma withinF_trans s t a b c : withinF s a b -> withinF t b c -> withinF (s + t) a c.
Proof. unfold withinF. lra. Qed.
Lemma withinF_weaken s t a b : s <= t -> withinF s a b -> withinF t a b.
Proof. unfold withinF. lra. Qed.
Lemma apartF_weaken s t a b : s <= t -> apartF s a b -> apartF t a b.
Proof. unfold apartF. lra. Qed.
Lemma apartF_sym t a b : apartF t a b -> apartF t b a.
Proof. unfold apartF. tauto. Qed.

Lemma d0 : 0 < d. Proof. apply half_ulp_pos. Qed.
Lemma occF_within X Y : forall b k, goodF X Y k b -> Forall (fun r => withinF (2 * INR (deep b) * d) r (binRect b) /\ 0 <= #(rw r) /\ 0 <= #(rh r)) (occF b).
Proof.
  pose proof d0. induction b as [r rot [o|]|r rot l IHl rr IHr]; intros k; cbn [goodF occF binRect deep].
  - intros (_ & _ & _ & _ & ? & ? & ? & ? & _). constructor; [|constructor]. cbn [INR]. unfold withinF. repeat split; lra.
  - constructor.
  - intros (Ok & (Wl & Wr & _) & Gl & Gr). apply Forall_app. split.
    + eapply Forall_impl; [|apply (IHl k Gl)]. cbn beta. intros a [Ha ?]. split; [|assumption]. eapply withinF_weaken; [|exact (withinF_trans _ _ _ _ _ Ha Wl)].
      assert (INR (deep l) <= INR (Nat.max (deep l) (S (deep rr)))) by (apply le_INR; lia). nra.
    + eapply Forall_impl; [|apply (IHr (S k) Gr)]. cbn beta. intros a [Ha ?]. split; [|assumption]. eapply withinF_weaken; [|exact (withinF_trans _ _ _ _ _ Ha Wr)].
      assert (INR (S (deep rr)) <= INR (Nat.max (deep l) (S (deep rr)))) as Q by (apply le_INR; lia). rewrite S_INR in Q. nra.
Qed.
Lemma occF_apart X Y : forall b k, goodF X Y k b -> ForallOrdPairs (apartF ((2 * INR (deep b) + 1) * d)) (occF b).
Proof.
  pose proof d0. induction b as [r rot [o|]|r rot l IHl rr IHr]; intros k; cbn [goodF occF deep].
  - intros _. constructor; constructor.
  - constructor.
  - intros (_ & (Wl & Wr & Sep) & Gl & Gr). assert (Ml : INR (deep l) <= INR (Nat.max (deep l) (S (deep rr)))) by (apply le_INR; lia).
    assert (Mr : INR (deep rr) <= INR (Nat.max (deep l) (S (deep rr)))) by (apply le_INR; lia).
    assert (FOPw : forall (s t : R) L, s <= t -> ForallOrdPairs (apartF s) L -> ForallOrdPairs (apartF t) L).
    { intros s t L Hst HL. induction HL; constructor; [|assumption]. eapply Forall_impl; [|exact H0]. intros b. apply apartF_weaken; exact Hst. }
    apply FOP_app.
    + eapply FOPw; [|apply (IHl k Gl)]. nra.
    + eapply FOPw; [|apply (IHr (S k) Gr)]. nra.
    + intros a b Ha Hb. pose proof (occF_within X Y l k Gl) as Ol. pose proof (occF_within X Y rr (S k) Gr) as Or. rewrite Forall_forall in Ol, Or. destruct (Ol a Ha) as [Wa _]. destruct (Or b Hb) as [Wb _].
      destruct Wa as (A1 & A2 & A3 & A4). destruct Wb as (B1 & B2 & B3 & B4). unfold apartF. set (m := INR (Nat.max (deep l) (S (deep rr)))) in *. destruct Sep as [S1|S1]; [left|right; right; left]; nra.
Qed.

(** ** one insertion *)
Notation posF := (pos FNum_pack).
Lemma pos_val w : posF w -> gofin w /\ 0 < #w.
Proof. intros [G P]. split; [exact G|]. change (@ltb FNum zero w) with (@ltb FNum (S754_zero false) w) in P. rewrite ltb_R in P by (try exact G; apply gofin_zero). destruct (Rlt_bool_spec #(S754_zero false) #w); [assumption|discriminate]. Qed.
Lemma rnd_ge0 z : 0 <= z -> 0 <= rnd z.
Proof. intros H. rewrite <- (round_0 radix2 fexp64 (round_mode mode_NE)). apply rnd_mono. exact H. Qed.

Lemma leafInsert_F X Y k : X + 2 * INR k * d <= bpow radix2 e -> Y + 2 * INR k * d <= bpow radix2 e ->
  forall f r rot obj o w h ans b', okR X Y k r -> posF w -> posF h -> leafInsert f r rot obj o w h = Ok (ans, b') ->
  goodF X Y k b' /\ binRect b' = r /\ (deep b' <= 1)%nat /\ match ans with None => True | Some (r', _) => Permutation (occF b') (r' :: occF (Leaf r rot obj)) end.
Proof.
  intros BX BY. pose proof d0 as D0. induction f as [|f IH]; intros r rot obj o w h ans b' Hr Pw Ph; [discriminate|]. cbn [leafInsert]. rewrite (pos_test FNum_pack w h Pw Ph).
  set (rt := tooSmall r w h). cbv zeta. remember (if rt then h else w) as w' eqn:Ew. remember (if rt then w else h) as h' eqn:Eh.
  assert (Pw' : posF w') by (rewrite Ew; destruct rt; assumption). assert (Ph' : posF h') by (rewrite Eh; destruct rt; assumption).
  destruct (rt && tooSmall r w' h') eqn:Et. { intros E; injection E as <- <-. cbn. auto. }
  assert (Hs : tooSmall r w' h' = false). { destruct rt eqn:E; [exact Et|]. rewrite Ew, Eh. exact E. }
  destruct obj as [q|]. { intros E; injection E as <- <-. cbn. auto. }
  destruct (pos_val _ Pw') as [Gw Vw]. destruct (pos_val _ Ph') as [Gh Vh].
  destruct Hr as (G1 & G2 & G3 & G4 & N1 & N2 & N3 & N4 & BX' & BY'). unfold tooSmall in Hs. apply orb_false_iff in Hs as [Hs1 Hs2]. rewrite ltb_R in Hs1, Hs2 by assumption.
  destruct (Rlt_bool_spec #(rh r) #h') as [|Lh]; [discriminate|]. destruct (Rlt_bool_spec #(rw r) #w') as [|Lw]; [discriminate|].
  assert (OK : okR X Y k r) by (unfold okR; repeat (split; [assumption|]); assumption).
  destruct (eqb (rh r) h' && eqb (rw r) w'). { intros E; injection E as <- <-. cbn. split; [exact OK|]. split; [reflexivity|]. split; [lia|]. apply Permutation_refl. }
  destruct (gtb _ _).
  - destruct (add_near e (rx r) w' He G1 Gw) as (Ga & Na & Ea); [rewrite Rabs_pos_eq; lra|]. destruct (sub_near e (rw r) w' He G3 Gw) as (Gs & Ns & Es); [rewrite Rabs_pos_eq; lra|]. apply abs_le in Na, Ns.
    assert (Mono : #(rx r) <= #(@add FNum (rx r) w')) by (rewrite Ea, <- (rnd_format _ G1) at 1; apply rnd_mono; lra).
    assert (Pos : 0 <= #(@sub FNum (rw r) w')) by (rewrite Es; apply rnd_ge0; lra).
    remember (@add FNum (rx r) w') as ax eqn:Eax. remember (@sub FNum (rw r) w') as sw eqn:Esw.
    destruct (leafInsert f _ rt None o w h) as [[a l]| | |] eqn:El; cbn [bind]; try discriminate. intros E; injection E as <- <-.
    apply IH in El; [|unfold okR; cbn [rx ry rw rh]; repeat (split; [assumption || lra|]); lra|exact Pw|exact Ph]. destruct El as (Gl & Bl & Dl & P). cbn [goodF occF binRect deep]. rewrite Bl. split; [|split; [reflexivity|split; [lia|]]].
    + split; [exact OK|]. split; [|split; [exact Gl|]].
      * unfold tilesF, withinF. cbn [rx ry rw rh]. split; [repeat split; lra|]. split; [repeat split; lra|]. left. lra.
      * unfold okR. cbn [rx ry rw rh]. rewrite S_INR. repeat (split; [assumption || lra|]). nra.
    + destruct a as [[r' ?]|]; [rewrite app_nil_r; exact P|exact I].
  - destruct (add_near e (ry r) h' He G2 Gh) as (Ga & Na & Ea); [rewrite Rabs_pos_eq; lra|]. destruct (sub_near e (rh r) h' He G4 Gh) as (Gs & Ns & Es); [rewrite Rabs_pos_eq; lra|]. apply abs_le in Na, Ns.
    assert (Mono : #(ry r) <= #(@add FNum (ry r) h')) by (rewrite Ea, <- (rnd_format _ G2) at 1; apply rnd_mono; lra).
    assert (Pos : 0 <= #(@sub FNum (rh r) h')) by (rewrite Es; apply rnd_ge0; lra).
    remember (@add FNum (ry r) h') as ay eqn:Eay. remember (@sub FNum (rh r) h') as sh eqn:Esh.
    destruct (leafInsert f _ rt None o w h) as [[a l]| | |] eqn:El; cbn [bind]; try discriminate. intros E; injection E as <- <-.
    apply IH in El; [|unfold okR; cbn [rx ry rw rh]; repeat (split; [assumption || lra|]); lra|exact Pw|exact Ph]. destruct El as (Gl & Bl & Dl & P). cbn [goodF occF binRect deep]. rewrite Bl. split; [|split; [reflexivity|split; [lia|]]].
    + split; [exact OK|]. split; [|split; [exact Gl|]].
      * unfold tilesF, withinF. cbn [rx ry rw rh]. split; [repeat split; lra|]. split; [repeat split; lra|]. right. lra.
      * unfold okR. cbn [rx ry rw rh]. rewrite S_INR. repeat (split; [assumption || lra|]). nra.
    + destruct a as [[r' ?]|]; [rewrite app_nil_r; exact P|exact I].
Qed.

Lemma goodF_fin X Y : forall b k, goodF X Y k b -> binFin FNum_pack b.
Proof.
  induction b as [r rot o|r rot l IHl rr IHr]; intros k; cbn [goodF binFin].
  - intros (_ & _ & G3 & G4 & _). split; assumption.
  - intros (_ & _ & Gl & Gr). split; eauto.
Qed.
Lemma Insert_F X Y K o w h : X + 2 * INR K * d <= bpow radix2 e -> Y + 2 * INR K * d <= bpow radix2 e -> posF w -> posF h ->
  forall b k r' rot' b', goodF X Y k b -> (k + deep b <= K)%nat -> Insert 3 b o w h = Ok (Some (r', rot'), b') ->
  goodF X Y k b' /\ binRect b' = binRect b /\ (deep b' <= S (deep b))%nat /\ Permutation (occF b') (r' :: occF b).
Proof.
  intros BX BY Pw Ph. pose proof d0 as D0. induction b as [r rot obj|r rot l IHl rr IHr]; intros k r' rot' b' Hg Hk; cbn [Insert].
  - intros E. assert (QK : INR k <= INR K) by (apply le_INR; lia). destruct (leafInsert_F X Y k ltac:(nra) ltac:(nra) 3 r rot obj o w h _ b' Hg Pw Ph E) as (G & B & D & P). cbn [deep]. auto.
  - cbn [goodF] in Hg. destruct Hg as (Ok & Ti & Gl & Gr). cbn [deep] in Hk.
    destruct (Insert_spec FNum_pack o w h 0 Pw Ph l (goodF_fin X Y l k Gl)) as [(r1 & rot1 & l' & E & _)|[E _]]; rewrite E; cbn [bind].
    + intros Q; injection Q as <- <- <-. destruct (IHl k _ _ _ Gl ltac:(lia) E) as (Gl' & Bl & Dl & P). cbn [goodF occF binRect deep]. rewrite Bl. split; [auto|]. split; [reflexivity|]. split; [lia|].
      change (r1 :: occF l ++ occF rr) with ((r1 :: occF l) ++ occF rr). apply Permutation_app_tail. exact P.
    + destruct (Insert 3 rr o w h) as [[a r2]| | |] eqn:Er; cbn [bind]; try discriminate. intros Q; injection Q as -> <-.
      destruct (IHr (S k) _ _ _ Gr ltac:(lia) eq_refl) as (Gr' & Br & Dr & P). cbn [goodF occF binRect deep]. rewrite Br. split; [auto|]. split; [reflexivity|]. split; [lia|]. rewrite P. symmetry. apply Permutation_middle.
Qed.

(** ** a history of insertions *)
Fixpoint placedF (l : list (placement (N:=FNum))) : list rectF := match l with [] => [] | Some (r, _) :: rest => r :: placedF rest | None :: rest => placedF rest end.
(** the size is the one that is asked for, or that with the sides exchanged *)
Definition sizeF (q : O * T FNum * T FNum) (r : rectF) : Prop := let '(_, w, h) := q in (#(rw r) = #w /\ #(rh r) = #h) \/ (#(rw r) = #h /\ #(rh r) = #w).

Lemma occF_fin X Y : forall b k, goodF X Y k b -> Forall (fun r : rectF => gofin (rx r) /\ gofin (ry r) /\ gofin (rw r) /\ gofin (rh r)) (occF b).
Proof.
  induction b as [r rot [o|]|r rot l IHl rr IHr]; intros k; cbn [goodF occF].
  - intros (? & ? & ? & ? & _). constructor; [auto|constructor].
  - constructor.
  - intros (_ & _ & Gl & Gr). apply Forall_app. split; eauto.
Qed.
Lemma inserts_F X Y K : X + 2 * INR K * d <= bpow radix2 e -> Y + 2 * INR K * d <= bpow radix2 e -> forall reqs, Forall (reqOk FNum_pack) reqs -> forall b ans b', goodF X Y 0 b ->
  inserts 3 b reqs = Ok (ans, b') -> (deep b + List.length (placedF ans) <= K)%nat ->
  goodF X Y 0 b' /\ binRect b' = binRect b /\ (deep b' <= K)%nat /\ Permutation (occF b') (placedF ans ++ occF b) /\
    Forall2 (fun q a => match a with Some (r, _) => sizeF q r | None => True end) reqs ans /\
    pairwise (fun a a' => match a, a' with Some (r, _), Some (r', _) => apartF ((2 * INR K + 1) * d) r r' | _, _ => True end) ans.
Proof.
  intros BX BY. pose proof d0 as D0. induction 1 as [|[[o w] h] rest [Pw Ph] Hr IH]; intros b ans b' Gb EI Hk.
  - cbn [inserts] in EI. injection EI as <- <-. cbn [placedF List.length] in Hk. repeat split; auto; [lia|]. intros i j a c _ Hi. destruct i; discriminate.
  - cbn [inserts] in EI. destruct (Insert_spec FNum_pack o w h 0 Pw Ph b (goodF_fin X Y b 0 Gb)) as [(r1 & rot1 & b1 & E & _ & Sz & _)|[E _]]; rewrite E in EI; cbn [bind] in EI.
    + destruct (inserts 3 b1 rest) as [[ans1 b2]| | |] eqn:E2; cbn [bind] in EI; try discriminate. injection EI as <- <-. cbn [placedF List.length] in Hk.
      destruct (Insert_F X Y K o w h BX BY Pw Ph b 0 r1 rot1 b1 Gb ltac:(lia) E) as (G1 & B1 & D1 & P1).
      destruct (IH b1 ans1 b2 G1 E2 ltac:(lia)) as (G2 & B2 & D2 & P2 & S2 & A2).
      split; [exact G2|]. split; [congruence|]. split; [exact D2|].
      assert (PP : Permutation (occF b2) (r1 :: placedF ans1 ++ occF b)). { rewrite P2, P1. symmetry. apply Permutation_middle. }
      split; [exact PP|]. split.
      * constructor; [|exact S2]. destruct (pos_val _ Pw) as [Gw _]. destruct (pos_val _ Ph) as [Gh _]. pose proof (occF_fin X Y b1 0 G1) as FF. rewrite P1 in FF. inversion FF as [|? ? (_ & _ & Gr1 & Gr2) _]; subst.
        cbn [sizeF]. destruct Sz as [[Z1 Z2]|[Z1 Z2]]; apply eqb_R in Z1; try assumption; apply eqb_R in Z2; try assumption; auto.
      * assert (MM : INR (deep b2) <= INR K) by (apply le_INR; lia).
        assert (FP0 : ForallOrdPairs (apartF ((2 * INR (deep b2) + 1) * d)) (r1 :: placedF ans1 ++ occF b)) by (eapply FOP_perm; [apply apartF_sym|exact PP|apply (occF_apart X Y b2 0 G2)]).
        inversion FP0 as [|? ? FH _]; subst. apply Forall_app in FH as [FH _].
        assert (Hd : forall j a, nth_error ans1 j = Some (Some a) -> apartF ((2 * INR K + 1) * d) r1 (fst a)).
        { intros j [r' rot'] Hj. rewrite Forall_forall in FH. eapply apartF_weaken; [|apply FH]. { nra. } cbn.
          clear - Hj. revert j Hj. induction ans1 as [|[[r2 rot2]|] l IHl]; intros [|j] Hj; cbn in *; try discriminate.
          - injection Hj as -> ->. left. reflexivity.
          - right. eapply IHl; eauto.
          - eapply IHl; eauto. }
        intros [|i] [|j] a c Hij Hi Hj; cbn in Hi, Hj; try congruence.
        -- injection Hi as <-. destruct c as [[r' rot']|]; auto. apply (Hd j (r', rot') Hj).
        -- injection Hj as <-. destruct a as [[r' rot']|]; auto. apply apartF_sym. apply (Hd i (r', rot') Hi).
        -- apply (A2 i j); auto.
    + destruct (inserts 3 b rest) as [[ans1 b2]| | |] eqn:E2; cbn [bind] in EI; try discriminate. injection EI as <- <-. cbn [placedF] in Hk.
      destruct (IH b ans1 b2 Gb E2 ltac:(lia)) as (G2 & B2 & D2 & P2 & S2 & A2). repeat split; auto.
      intros [|i] [|j] a c Hij Hi Hj; cbn in Hi, Hj; try congruence.
      * injection Hi as <-. exact I.
      * injection Hj as <-. destruct a as [[? ?]|]; exact I.
      * apply (A2 i j); auto.
Qed.

Lemma Forall2_map_l {A B C} (P : A -> B -> Prop) (f : C -> A) : forall l l', Forall2 P (map f l) l' -> Forall2 (fun x y => P (f x) y) l l'.
Proof. induction l as [|x l IH]; intros l' H; inversion H; subst; constructor; auto. Qed.
Lemma placed_In r rot : forall ans : list (placement (N:=FNum)), In (Some (r, rot)) ans -> In r (placedF ans).
Proof. induction ans as [|[[r1 rot1]|] l IH]; cbn [placedF]; intros H; [destruct H| |]; destruct H as [H|H]; try discriminate; [left; congruence|right; auto|auto]. Qed.

(** a container and a history of insertions *)
Lemma container_F (x y w h : T FNum) K : gofin x -> gofin y -> gofin w -> gofin h -> 0 <= #x -> 0 <= #y -> 0 <= #w -> 0 <= #h ->
  #x + #w + 2 * INR K * d <= bpow radix2 e -> #y + #h + 2 * INR K * d <= bpow radix2 e -> forall (reqs : list (O * T FNum * T FNum)) ans b', Forall (reqOk FNum_pack) reqs ->
  inserts 3 (NewContainer x y w h : bin) reqs = Ok (ans, b') -> (List.length (placedF ans) <= K)%nat ->
  Forall2 (fun q a => match a with Some (r, _) => sizeF q r /\ withinF (2 * INR K * d) r (mkRect x y w h) /\ gofin (rx r) /\ gofin (ry r) | None => True end) reqs ans /\
  pairwise (fun a a' => match a, a' with Some (r, _), Some (r', _) => apartF ((2 * INR K + 1) * d) r r' | _, _ => True end) ans.
Proof.
  intros Gx Gy Gw Gh Px Py Pw Ph BX BY reqs ans b' Hr E HK. pose proof d0 as D0.
  assert (G0 : goodF (#x + #w) (#y + #h) 0 (NewContainer x y w h : bin)) by (cbn; unfold okR; cbn [rx ry rw rh INR]; repeat (split; [assumption || lra|]); lra).
  destruct (inserts_F (#x + #w) (#y + #h) K ltac:(lra) ltac:(lra) reqs Hr _ ans b' G0 E ltac:(cbn; exact HK)) as (G & B & D & P & S & A). split; [|exact A].
  cbn [NewContainer NewBin binRect occF] in B, P. rewrite app_nil_r in P. pose proof (occF_within _ _ b' 0 G) as W. pose proof (occF_fin _ _ b' 0 G) as FF. rewrite B, P in W. rewrite P in FF. assert (DK : INR (deep b') <= INR K) by (apply le_INR; exact D).
  clear - S W FF D0 DK. induction S as [|q a l l' Hq S IH]; constructor.
  - destruct a as [[r rot]|]; [|exact I]. split; [exact Hq|]. cbn [placedF] in W, FF. inversion W as [|? ? [W1 _] _]; subst. inversion FF as [|? ? (F1 & F2 & _) _]; subst. split; [|split; assumption]. eapply withinF_weaken; [|exact W1]. nra.
  - apply IH; [destruct a as [[r rot]|]; cbn [placedF] in W; [inversion W; assumption|exact W]|destruct a as [[r rot]|]; cbn [placedF] in FF; [inversion FF; assumption|exact FF]].
Qed.

(** ** padding *)
Definition padReqF (p : T FNum) (q : O * T FNum * T FNum) : O * T FNum * T FNum := let '(o, w, h) := q in (o, paddedSize p w, paddedSize p h).
Definition unpadF (p : T FNum) (q : O * T FNum * T FNum) (a : placement (N:=FNum)) : placement (N:=FNum) :=
  match a with None => None | Some (r, rot) => Some (mkRect (add (n:=FNum) (rx r) p) (add (n:=FNum) (ry r) p) (snd (fst q)) (snd q), rot) end.
Fixpoint unpadsF (p : T FNum) (qs : list (O * T FNum * T FNum)) (l : list (placement (N:=FNum))) : list (placement (N:=FNum)) :=
  match qs, l with q :: qs', a :: l' => unpadF p q a :: unpadsF p qs' l' | _, _ => [] end.
Lemma insertsPadded_back p reqs : forall (b : bin) ans b', insertsPadded 3 p b reqs = Ok (ans, b') -> exists ans0, inserts 3 b (map (padReqF p) reqs) = Ok (ans0, b') /\ ans = unpadsF p reqs ans0 /\ List.length ans0 = List.length reqs.
Proof.
  induction reqs as [|[[o w] h] rest IH]; intros b ans b'; cbn [map padReqF inserts insertsPadded].
  - intros E. injection E as <- <-. exists []. auto.
  - unfold InsertWithPadding. destruct (Insert 3 b o (paddedSize p w) (paddedSize p h)) as [[a b1]| | |] eqn:E1; cbn [bind]; try discriminate.
    destruct (insertsPadded 3 p b1 rest) as [[l b2]| | |] eqn:E2; cbn [bind]; try discriminate. intros E. injection E as <- <-. destruct (IH _ _ _ E2) as (l0 & E3 & -> & L). rewrite E3. cbn [bind].
    exists (a :: l0). split; [reflexivity|]. cbn [unpadsF List.length]. rewrite L. split; [|reflexivity]. destruct a as [[r rot]|]; reflexivity.
Qed.
Lemma insertsPadded_F p reqs : forall (b : bin) ans b', inserts 3 b (map (padReqF p) reqs) = Ok (ans, b') -> insertsPadded 3 p b reqs = Ok (unpadsF p reqs ans, b') /\ List.length (unpadsF p reqs ans) = List.length reqs.
Proof.
  induction reqs as [|[[o w] h] rest IH]; intros b ans b'; cbn [map padReqF inserts insertsPadded].
  - intros E. injection E as <- <-. split; reflexivity.
  - unfold InsertWithPadding. destruct (Insert 3 b o (paddedSize p w) (paddedSize p h)) as [[a b1]| | |] eqn:E1; cbn [bind]; try discriminate.
    destruct (inserts 3 b1 (map (padReqF p) rest)) as [[l b2]| | |] eqn:E2; cbn [bind]; try discriminate.
    intros E. injection E as <- <-. destruct (IH _ _ _ E2) as [E3 L]. rewrite E3. cbn [bind unpadsF List.length]. rewrite L. split; [|reflexivity]. destruct a as [[r rot]|]; reflexivity.
Qed.
End Packing.
