(** The few laws of float comparison that some structural theorems need, and the proof that the
    IEEE and exact instances satisfy them.  (No law is assumed anywhere: theorems take [EqLaws N]
    as a hypothesis and [FNum_eq_laws] / [RNum_eq_laws] discharge it.) *)
From Coq Require Import ZArith NArith Bool Reals Lra Lia.
From Coq.Floats Require Import SpecFloat.
From Verif Require Import Num FloatNum RealNum.

Record EqLaws (N : Num) : Prop := mkEqLaws {
  eqb_sym : forall x y : T N, eqb x y = eqb y x;
  eqb_trans : forall x y z : T N, eqb x y = true -> eqb y z = true -> eqb x z = true;
  eqb_refl : forall x : T N, isnan x = false -> eqb x x = true;
  eqb_not_nan : forall x y : T N, eqb x y = true -> isnan x = false;
  zero_not_nan : isnan (@zero N) = false
}.
Arguments eqb_sym {N}. Arguments eqb_trans {N}. Arguments eqb_refl {N}. Arguments eqb_not_nan {N}. Arguments zero_not_nan {N}.

(** [==] on binary64: true exactly for identical non-NaN data or two zeros *)
Definition sf_same (x y : spec_float) : Prop :=
  (x = y /\ x <> S754_nan) \/ (exists s s', x = S754_zero s /\ y = S754_zero s').

Lemma SFeqb_same x y : SFeqb x y = true <-> sf_same x y.
Proof.
  unfold SFeqb, sf_same. split.
  - destruct x as [s|s| |s m e], y as [s'|s'| |s' m' e']; cbn;
      try (destruct s); try (destruct s'); cbn; try discriminate; intros H;
      try (right; eauto; fail); try (left; split; [reflexivity|discriminate]);
      (destruct (Z.compare_spec e e') as [Ee|Ee|Ee]; try discriminate;
       change (Pos.compare_cont Eq m m') with (Pos.compare m m') in H;
       destruct (Pos.compare m m') eqn:Em; try discriminate H;
       apply Pos.compare_eq in Em; subst; left; split; [reflexivity|discriminate]).
  - intros [[-> Hn]|(s & s' & -> & ->)]; [|reflexivity].
    destruct y as [s|s| |s m e]; cbn; try congruence; destruct s; cbn; auto;
      rewrite Z.compare_refl, ?Pos.compare_refl; try reflexivity;
      try (rewrite Pos.compare_cont_refl; reflexivity).
Qed.

Lemma FNum_eq_laws : EqLaws FNum.
Proof.
  constructor; cbn.
  - intros x y. destruct (SFeqb x y) eqn:E.
    + symmetry. apply SFeqb_same. apply SFeqb_same in E.
      destruct E as [[-> Hn]|(s & s' & -> & ->)]; [left; auto|right; eauto].
    + symmetry. destruct (SFeqb y x) eqn:E'; [|reflexivity].
      apply SFeqb_same in E'. exfalso.
      assert (SFeqb x y = true); [|congruence]. apply SFeqb_same.
      destruct E' as [[-> Hn]|(s & s' & -> & ->)]; [left; auto|right; eauto].
  - intros x y z H1 H2. apply SFeqb_same in H1, H2. apply SFeqb_same.
    destruct H1 as [[-> Hn]|(s & s' & -> & ->)]; auto.
    destruct H2 as [[<- Hn]|(t & t' & Ht & ->)]; right; eauto.
  - intros x H. apply SFeqb_same. left. split; auto. intros ->. discriminate.
  - intros x y H. apply SFeqb_same in H. destruct H as [[-> Hn]|(s & s' & -> & ->)]; [|reflexivity].
    destruct y; auto; congruence.
  - reflexivity.
Qed.

Lemma RNum_eq_laws : EqLaws RNum.
Proof.
  constructor; cbn.
  - intros [x|s|] [y|s'|]; cbn; auto.
    + unfold Reqb. destruct (Req_EM_T x y), (Req_EM_T y x); auto; congruence.
    + destruct s, s'; reflexivity.
  - intros [x|s|] [y|s'|] [z|s''|]; cbn; try discriminate; rewrite ?Reqb_true; intros; subst; auto.
    destruct s, s', s''; try discriminate; reflexivity.
  - intros [x|s|] H; cbn; try discriminate; [apply Reqb_true; reflexivity|destruct s; reflexivity].
  - intros [x|s|] [y|s'|]; cbn; auto; discriminate.
  - reflexivity.
Qed.

(** ** order *)
Record OrdLaws (N : Num) : Prop := mkOrdLaws {
  ord_eq : EqLaws N;
  ltb_irrefl : forall x : T N, ltb x x = false;
  ltb_trans : forall x y z : T N, ltb x y = true -> ltb y z = true -> ltb x z = true;
  ltb_nan : forall x y : T N, ltb x y = true -> isnan x = false /\ isnan y = false;
  ltb_trich : forall x y : T N, isnan x = false -> isnan y = false ->
    ltb x y = false -> ltb y x = false -> eqb x y = true;
  ltb_eqb : forall x y z : T N, eqb y z = true -> ltb x y = ltb x z;
  eqb_ltb : forall x y z : T N, eqb y z = true -> ltb y x = ltb z x;
  leb_ltb_eqb : forall x y : T N, leb x y = ltb x y || eqb x y
}.
Arguments ord_eq {N}. Arguments ltb_irrefl {N}. Arguments ltb_trans {N}. Arguments ltb_nan {N}.
Arguments ltb_trich {N}. Arguments ltb_eqb {N}. Arguments eqb_ltb {N}. Arguments leb_ltb_eqb {N}.

(** binary64 data ordered lexicographically: sign/class, exponent, mantissa *)
Definition sf_key (x : spec_float) : Z * (Z * Z) :=
  match x with
  | S754_nan => (0, (0, 0))
  | S754_zero _ => (0, (0, 0))
  | S754_infinity true => (-2, (0, 0))
  | S754_infinity false => (2, (0, 0))
  | S754_finite true m e => (-1, (- e, - Zpos m))
  | S754_finite false m e => (1, (e, Zpos m))
  end%Z.

Definition lex (a b : Z * (Z * Z)) : comparison :=
  match Z.compare (fst a) (fst b) with
  | Eq => match Z.compare (fst (snd a)) (fst (snd b)) with
          | Eq => Z.compare (snd (snd a)) (snd (snd b))
          | c => c
          end
  | c => c
  end.

Lemma lex_Lt a b : lex a b = Lt <-> (fst a < fst b \/ fst a = fst b /\ (fst (snd a) < fst (snd b) \/
   fst (snd a) = fst (snd b) /\ snd (snd a) < snd (snd b)))%Z.
Proof.
  unfold lex. destruct (Z.compare_spec (fst a) (fst b)), (Z.compare_spec (fst (snd a)) (fst (snd b))),
    (Z.compare_spec (snd (snd a)) (snd (snd b))); split; intros; try discriminate; try lia; auto.
Qed.
Lemma lex_Eq a b : lex a b = Eq <-> a = b.
Proof.
  destruct a as [a1 [a2 a3]], b as [b1 [b2 b3]]. unfold lex; cbn.
  destruct (Z.compare_spec a1 b1), (Z.compare_spec a2 b2), (Z.compare_spec a3 b3); split; intros E;
    try discriminate; try congruence; inversion E; subst; lia.
Qed.
Lemma lex_Gt a b : lex a b = Gt <-> lex b a = Lt.
Proof.
  rewrite lex_Lt. unfold lex. destruct (Z.compare_spec (fst a) (fst b)), (Z.compare_spec (fst (snd a)) (fst (snd b))),
    (Z.compare_spec (snd (snd a)) (snd (snd b))); split; intros; try discriminate; try lia; auto.
Qed.

Lemma SFcompare_key x y : f_isnan x = false -> f_isnan y = false -> SFcompare x y = Some (lex (sf_key x) (sf_key y)).
Proof.
  destruct x as [s|s| |s m e], y as [s'|s'| |s' m' e']; try discriminate; intros _ _;
    destruct s; try destruct s'; cbn; try reflexivity.
  - f_equal. destruct (Z.compare_spec e e'), (Z.compare_spec (- e) (- e')); try lia; reflexivity.
Qed.

Lemma SFltb_key x y : SFltb x y = true <-> f_isnan x = false /\ f_isnan y = false /\ lex (sf_key x) (sf_key y) = Lt.
Proof.
  unfold SFltb. destruct (f_isnan x) eqn:Ex.
  - destruct x; try discriminate. cbn. split; [discriminate|intuition discriminate].
  - destruct (f_isnan y) eqn:Ey.
    + destruct y; try discriminate. destruct x; cbn; split; try discriminate; intuition discriminate.
    + rewrite (SFcompare_key x y Ex Ey). destruct (lex _ _); split; auto; try discriminate; intuition discriminate.
Qed.
Lemma SFeqb_key x y : SFeqb x y = true <-> f_isnan x = false /\ f_isnan y = false /\ sf_key x = sf_key y.
Proof.
  unfold SFeqb. destruct (f_isnan x) eqn:Ex.
  - destruct x; try discriminate. cbn. split; [discriminate|intuition discriminate].
  - destruct (f_isnan y) eqn:Ey.
    + destruct y; try discriminate. destruct x; cbn; split; try discriminate; intuition discriminate.
    + rewrite (SFcompare_key x y Ex Ey), <- lex_Eq.
      destruct (lex _ _); split; auto; try discriminate; intuition discriminate.
Qed.

Lemma bool_ext b c : (b = true <-> c = true) -> b = c.
Proof. destruct b, c; intuition congruence. Qed.

Lemma FNum_ord_laws : OrdLaws FNum.
Proof.
  constructor; cbn.
  - exact FNum_eq_laws.
  - intros x. apply not_true_iff_false. rewrite SFltb_key, lex_Lt. lia.
  - intros x y z. rewrite !SFltb_key, !lex_Lt. intuition lia.
  - intros x y. rewrite SFltb_key. tauto.
  - intros x y Hx Hy H1 H2. apply SFeqb_key. split; auto. split; auto.
    apply not_true_iff_false in H1, H2. rewrite SFltb_key in H1, H2.
    apply lex_Eq. destruct (lex (sf_key x) (sf_key y)) eqn:E; auto; exfalso.
    + apply H1; auto.
    + apply H2. rewrite <- lex_Gt. auto.
  - intros x y z H. apply SFeqb_key in H as (H1 & H2 & H3). apply bool_ext. rewrite !SFltb_key, H3. tauto.
  - intros x y z H. apply SFeqb_key in H as (H1 & H2 & H3). apply bool_ext. rewrite !SFltb_key, H3. tauto.
  - intros x y. unfold SFleb, SFltb, SFeqb. destruct (SFcompare x y) as [[]|]; reflexivity.
Qed.

Lemma RNum_ord_laws : OrdLaws RNum.
Proof.
  constructor; cbn.
  - exact RNum_eq_laws.
  - intros [x|[]|]; cbn; auto. apply Rltb_false. lra.
  - intros [x|[]|] [y|[]|] [z|[]|]; cbn; try discriminate; auto. rewrite !Rltb_true. lra.
  - intros [x|[]|] [y|[]|]; cbn; try discriminate; auto.
  - intros [x|[]|] [y|[]|]; cbn; try discriminate; auto. rewrite !Rltb_false, Reqb_true. lra.
  - intros [x|[]|] [y|[]|] [z|[]|]; cbn; try discriminate; auto; rewrite Reqb_true; intros ->; auto.
  - intros [x|[]|] [y|[]|] [z|[]|]; cbn; try discriminate; auto; rewrite Reqb_true; intros ->; auto.
  - intros [x|[]|] [y|[]|]; cbn; auto. apply bool_ext. rewrite orb_true_iff, Rleb_true, Rltb_true, Reqb_true. lra.
Qed.
