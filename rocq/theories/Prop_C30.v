(** C30: sorting maps by a key uses a consistent order. *)
From Coq Require Import String Ascii List ZArith Bool Arith Lia Permutation.
From Coq.Floats Require Import SpecFloat.
From Verif Require Import Num DynModel DynProofs.
Import ListNotations.
Local Open Scope string_scope.
Local Open Scope list_scope.

(** *** the order of strings *)
Lemma strcmp_refl s : String.compare s s = Eq.
Proof. induction s as [|c r IH]; cbn; [reflexivity|]. unfold Ascii.compare. rewrite N.compare_refl. exact IH. Qed.
Lemma strcmp_trans a : forall b c, String.compare a b = Lt -> String.compare b c = Lt -> String.compare a c = Lt.
Proof.
  induction a as [|x a IH]; intros [|y b] [|z c]; cbn; try discriminate; auto. unfold Ascii.compare. intros H1 H2.
  destruct (N.compare_spec (N_of_ascii x) (N_of_ascii y)) as [E1|L1|L1]; try discriminate; destruct (N.compare_spec (N_of_ascii y) (N_of_ascii z)) as [E2|L2|L2]; try discriminate.
  - rewrite E1, E2, N.compare_refl. eauto.
  - rewrite E1. apply N.compare_lt_iff in L2. rewrite L2. reflexivity.
  - rewrite <- E2. apply N.compare_lt_iff in L1. rewrite L1. reflexivity.
  - assert (L : (N_of_ascii x < N_of_ascii z)%N) by lia. apply N.compare_lt_iff in L. rewrite L. reflexivity.
Qed.
Lemma ltb_iff a b : String.ltb a b = true <-> String.compare a b = Lt.
Proof. unfold String.ltb. destruct (String.compare a b); split; congruence. Qed.
Lemma ltb_irrefl a : String.ltb a a = false. Proof. unfold String.ltb. rewrite strcmp_refl. reflexivity. Qed.
Lemma ltb_total a b : String.ltb a b = false -> String.ltb b a = false -> a = b.
Proof.
  unfold String.ltb. rewrite (String.compare_antisym b a). destruct (String.compare a b) eqn:E; try discriminate. intros _ _. apply String.compare_eq_iff. exact E.
Qed.

(** *** the specification: a strict weak order *)
Record strictWeak {A : Type} (P : A -> Prop) (lt : A -> A -> bool) : Prop := mkSW {
  sw_irrefl : forall x, P x -> lt x x = false;
  sw_trans : forall x y z, P x -> P y -> P z -> lt x y = true -> lt y z = true -> lt x z = true;
  sw_equiv : forall x y z, P x -> P y -> P z -> lt x y = false -> lt y x = false -> lt y z = false -> lt z y = false -> lt x z = false /\ lt z x = false }.

(** ranks: the class, and in it a number or a text *)
Definition rank : Type := (nat * (Z * string))%type.
Definition rlt (a b : rank) : bool :=
  (Nat.ltb (fst a) (fst b) || (Nat.eqb (fst a) (fst b) && (Z.ltb (fst (snd a)) (fst (snd b)) || (Z.eqb (fst (snd a)) (fst (snd b)) && String.ltb (snd (snd a)) (snd (snd b))))))%bool.
Lemma rlt_iff a b : rlt a b = true <-> (fst a < fst b \/ (fst a = fst b /\ ((fst (snd a) < fst (snd b))%Z \/ (fst (snd a) = fst (snd b) /\ String.compare (snd (snd a)) (snd (snd b)) = Lt)))).
Proof. unfold rlt. rewrite orb_true_iff, andb_true_iff, orb_true_iff, andb_true_iff, Nat.ltb_lt, Nat.eqb_eq, Z.ltb_lt, Z.eqb_eq, ltb_iff. reflexivity. Qed.
Lemma rlt_irrefl a : rlt a a = false.
Proof. destruct (rlt a a) eqn:E; auto. apply rlt_iff in E. rewrite strcmp_refl in E. destruct E as [E|[_ [E|[_ E]]]]; [lia|lia|discriminate]. Qed.
Lemma rlt_trans a b c : rlt a b = true -> rlt b c = true -> rlt a c = true.
Proof.
  rewrite !rlt_iff. intros [A|[A1 [A2|[A2 A3]]]] [B|[B1 [B2|[B2 B3]]]]; try (left; lia); right; (split; [lia|]); try (left; lia). right. split; [lia|]. eapply strcmp_trans; eauto.
Qed.
Lemma rlt_total a b : rlt a b = false -> rlt b a = false -> a = b.
Proof.
  destruct a as [n [z s]], b as [m [y t]]. intros H1 H2.
  assert (N1 : ~ (n < m \/ (n = m /\ ((z < y)%Z \/ (z = y /\ String.compare s t = Lt))))) by (rewrite <- (rlt_iff (n, (z, s)) (m, (y, t))); congruence).
  assert (N2 : ~ (m < n \/ (m = n /\ ((y < z)%Z \/ (y = z /\ String.compare t s = Lt))))) by (rewrite <- (rlt_iff (m, (y, t)) (n, (z, s))); congruence).
  assert (n = m) by lia. subst m. assert (z = y) by lia. subst y.
  f_equal. f_equal. apply ltb_total.
  - destruct (String.ltb s t) eqn:E; auto. apply ltb_iff in E. exfalso. apply N1. right. auto.
  - destruct (String.ltb t s) eqn:E; auto. apply ltb_iff in E. exfalso. apply N2. right. auto.
Qed.
Lemma rank_weak {A} (P : A -> Prop) lt (f : A -> rank) : (forall x y, P x -> P y -> lt x y = rlt (f x) (f y)) -> strictWeak P lt.
Proof.
  intros H. constructor.
  - intros x X. rewrite H by auto. apply rlt_irrefl.
  - intros x y z X Y Z. rewrite !H by auto. apply rlt_trans.
  - intros x y z X Y Z. rewrite !H by auto. intros H1 H2 H3 H4. pose proof (rlt_total _ _ H1 H2) as E. pose proof (rlt_total _ _ H3 H4) as E2. rewrite E, E2. split; apply rlt_irrefl.
Qed.

Definition noBool (v : val) : Prop := forall b, v <> VBool b.
Definition valRank (show : val -> string) (v : val) : rank :=
  match v with
  | VInt z => (1, (z, "")) | VFloat x => (1, (truncZ x, "")) | VStr s => (2, (0%Z, s)) | VTime t => (3, (t, ""))
  | VMap _ | VStrMap _ => (4, (0%Z, show v)) | _ => (10, (0%Z, show v))
  end.
Lemma Less_rank show v w : noBool v -> noBool w -> Less show v w = rlt (valRank show v) (valRank show w).
Proof.
  intros V W. assert (ZL : forall x y, Z.ltb x y = (Z.ltb x y || (Z.eqb x y && String.ltb "" ""))%bool) by (intros; rewrite ltb_irrefl, andb_false_r, orb_false_r; reflexivity).
  destruct v; try (exfalso; eapply V; reflexivity); destruct w; try (exfalso; eapply W; reflexivity); cbn; unfold rlt; cbn; try reflexivity; apply ZL.
Qed.

(** Without booleans the comparison of values is a strict weak order. *)
Theorem C30_less show : strictWeak noBool (Less show).
Proof. apply (rank_weak noBool (Less show) (valRank show)). apply Less_rank. Qed.
Print Assumptions C30_less.

(** So is the comparison of maps by a key under which no map has a boolean; maps without the key come after all others. *)
Definition slotRank (show : val -> string) (h : heap) (col : string) (a : nat) : rank :=
  match Get h a col with Some v => valRank show v | None => (11, (0%Z, "")) end.
Definition noBoolAt (h : heap) (col : string) (a : nat) : Prop := forall b, Get h a col <> Some (VBool b).
Lemma valRank_class show v : fst (valRank show v) < 11. Proof. destruct v; cbn; lia. Qed.
Lemma SliceLess_rank show h col a b : noBoolAt h col a -> noBoolAt h col b -> SliceLess show h col a b = rlt (slotRank show h col a) (slotRank show h col b).
Proof.
  intros A B. unfold SliceLess, slotRank. destruct (Get h a col) as [v|] eqn:E; destruct (Get h b col) as [w|] eqn:F.
  - apply Less_rank; [intros c ->; apply (A c E)|intros c ->; apply (B c F)].
  - unfold rlt. cbn [fst snd]. pose proof (valRank_class show v) as H. apply Nat.ltb_lt in H. rewrite H. reflexivity.
  - unfold rlt. cbn [fst snd]. pose proof (valRank_class show w) as H. destruct (Nat.ltb_spec 11 (fst (valRank show w))); [lia|]. destruct (Nat.eqb_spec 11 (fst (valRank show w))); [lia|reflexivity].
  - symmetry. apply rlt_irrefl.
Qed.
Theorem C30_slice_less show h col : strictWeak (noBoolAt h col) (SliceLess show h col).
Proof. apply (rank_weak _ _ (slotRank show h col)). apply SliceLess_rank. Qed.
Print Assumptions C30_slice_less.

(** *** sorted lists.  sort.Sort promises no inversions between neighbours. *)
Definition noInversions (lt : nat -> nat -> bool) (l : list nat) : Prop := forall i a b, nth_error l i = Some a -> nth_error l (S i) = Some b -> lt b a = false.
(** In a list of maps without inversions between neighbours, no later map is less than an earlier one: maps without the key come last, and
    the values under the key do not decrease, by class (numbers, texts, times, maps, others) and within a class by their order. *)
Theorem C30_sorted show h col l : Forall (noBoolAt h col) l -> noInversions (SliceLess show h col) l ->
  forall i j a b, i < j -> nth_error l i = Some a -> nth_error l j = Some b ->
  SliceLess show h col b a = false /\ (Get h a col = None -> Get h b col = None) /\
  (forall x y, Get h a col = Some (VInt x) -> Get h b col = Some (VInt y) -> (x <= y)%Z) /\
  (forall x y, Get h a col = Some (VTime x) -> Get h b col = Some (VTime y) -> (x <= y)%Z) /\
  (forall x y, Get h a col = Some (VStr x) -> Get h b col = Some (VStr y) -> String.compare x y <> Gt) /\
  (forall v w, Get h a col = Some v -> Get h b col = Some w -> sortOrder (ToSortVal v) <= sortOrder (ToSortVal w)).
Proof.
  intros NB NI. rewrite Forall_forall in NB.
  assert (LE : forall j i a b, i < j -> nth_error l i = Some a -> nth_error l j = Some b -> rlt (slotRank show h col b) (slotRank show h col a) = false).
  { induction j as [|j IH]; intros i a b Hij EA EB; [lia|]. assert (A := NB a (nth_error_In _ _ EA)). assert (B := NB b (nth_error_In _ _ EB)).
    destruct (nth_error l j) as [c|] eqn:EC; [|apply nth_error_None in EC; assert (S j < length l) by (apply nth_error_Some; congruence); lia].
    assert (C := NB c (nth_error_In _ _ EC)). assert (BC := NI j c b EC EB). rewrite SliceLess_rank in BC by auto.
    destruct (Nat.eq_dec i j) as [->|NE]; [assert (c = a) by congruence; subst; exact BC|].
    assert (CA : rlt (slotRank show h col c) (slotRank show h col a) = false) by (apply (IH i a c); auto; lia).
    destruct (rlt (slotRank show h col b) (slotRank show h col a)) eqn:E; auto.
    destruct (rlt (slotRank show h col a) (slotRank show h col c)) eqn:E2; [pose proof (rlt_trans _ _ _ E E2); congruence|]. pose proof (rlt_total _ _ CA E2) as Q. rewrite Q in BC. congruence. }
  intros i j a b Hij EA EB. assert (A := NB a (nth_error_In _ _ EA)). assert (B := NB b (nth_error_In _ _ EB)).
  pose proof (LE j i a b Hij EA EB) as H.
  assert (NL : ~ (fst (slotRank show h col b) < fst (slotRank show h col a) \/ (fst (slotRank show h col b) = fst (slotRank show h col a) /\
    ((fst (snd (slotRank show h col b)) < fst (snd (slotRank show h col a)))%Z \/ (fst (snd (slotRank show h col b)) = fst (snd (slotRank show h col a)) /\
     String.compare (snd (snd (slotRank show h col b))) (snd (snd (slotRank show h col a))) = Lt))))) by (rewrite <- rlt_iff; congruence).
  rewrite SliceLess_rank by auto. split; [exact H|]. unfold slotRank in NL. repeat split.
  - intros E. rewrite E in NL. destruct (Get h b col) as [w|]; auto. exfalso. apply NL. left. cbn. apply valRank_class.
  - intros x y E F. rewrite E, F in NL. cbn in NL. lia.
  - intros x y E F. rewrite E, F in NL. cbn in NL. lia.
  - intros x y E F G. rewrite E, F in NL. cbn in NL. apply NL. right. split; auto. right. split; auto. rewrite String.compare_antisym, G. reflexivity.
  - intros v w E F. rewrite E, F in NL. assert (K : forall u, noBool u -> sortOrder (ToSortVal u) = fst (valRank show u)) by (intros [] N; try reflexivity; destruct (N b0 eq_refl)).
    rewrite !K; [lia|intros c ->; apply (B c F)|intros c ->; apply (A c E)].
Qed.
Print Assumptions C30_sorted.

(** *** concrete maps: {"n": 2}, {"n": "x"}, {}, {"n": 7} *)
Definition rows : heap := mkHeap 4 (fun a => match a with 0 => [("n", VInt 2)] | 1 => [("n", VStr "x")] | 3 => [("n", VInt 7)] | _ => [] end).
Definition noShow (v : val) : string := "".
Example C30_example : Forall (noBoolAt rows "n") [0; 3; 1; 2] /\ noInversions (SliceLess noShow rows "n") [0; 3; 1; 2] /\ ~ noInversions (SliceLess noShow rows "n") [3; 0; 1; 2].
Proof.
  split; [|split].
  - repeat constructor; intros b E; discriminate.
  - intros [|[|[|[|i]]]] a b E F; cbn in E, F; try discriminate; try (injection E as <-; injection F as <-; reflexivity).
  - intros H. specialize (H 0 3 0 eq_refl eq_refl). discriminate.
Qed.

(** Finding: of two equal booleans true each is less than the other, so the comparison is not irreflexive, and no arrangement of the two
    maps {"on": true} is free of inversions. *)
Definition flags : heap := mkHeap 2 (fun a => match a with 0 | 1 => [("on", VBool true)] | _ => [] end).
Theorem C30_bool_refuted show : Less show (VBool true) (VBool true) = true /\ forall l, Permutation l [0; 1] -> ~ noInversions (SliceLess show flags "on") l.
Proof.
  split; [reflexivity|]. intros l P H. pose proof (Permutation_length P) as L. destruct l as [|x [|y [|z l]]]; try discriminate.
  assert (X : forall w, In w [x; y] -> w = 0 \/ w = 1). { intros w I. apply (Permutation_in w P) in I. cbn in I. intuition. }
  specialize (H 0 x y eq_refl eq_refl). destruct (X x) as [->| ->]; [left; auto| |]; (destruct (X y) as [->| ->]; [right; left; auto| |]); discriminate.
Qed.
Print Assumptions C30_bool_refuted.
(** Finding: numbers are compared without their fractions: 1.5 before 1.2 counts as sorted. *)
Definition fractions : heap := mkHeap 2 (fun a => match a with 0 => [("w", VFloat (S754_finite false 6755399441055744 (-52)))] | 1 => [("w", VFloat (S754_finite false 5404319552844595 (-52)))] | _ => [] end).
Theorem C30_float_refuted show : noInversions (SliceLess show fractions "w") [0; 1] /\
  exists x y, Get fractions 0 "w" = Some (VFloat x) /\ Get fractions 1 "w" = Some (VFloat y) /\ SFltb y x = true.
Proof.
  split.
  - intros [|[|i]] a b E F; cbn in E, F; try discriminate; injection E as <-; injection F as <-; reflexivity.
  - do 2 eexists. repeat split.
Qed.
Print Assumptions C30_float_refuted.

(** A number with a fraction counts as its whole part: the fraction is dropped, above zero downwards and below zero upwards. *)
From Coq Require Import Reals Lra.
From Verif Require Import PrecisionProofs.
Lemma div_whole m d : (0 < d)%Z -> (IZR (m / d) <= IZR m / IZR d < IZR (m / d) + 1)%R.
Proof.
  intros D. pose proof (Z.div_mod m d ltac:(lia)) as E. pose proof (Z.mod_pos_bound m d D) as [B1 B2].
  assert (P : (0 < IZR d)%R) by (apply (IZR_lt 0); exact D).
  assert (EQ : (IZR m / IZR d = IZR (m / d) + IZR (m mod d) / IZR d)%R).
  { rewrite E at 1. rewrite plus_IZR, mult_IZR. field. lra. }
  apply IZR_le in B1. apply IZR_lt in B2. rewrite EQ.
  assert (Q : (0 <= IZR (m mod d) / IZR d)%R) by (apply Rle_mult_inv_pos; [exact B1|exact P]).
  assert (Q2 : (IZR (m mod d) / IZR d < 1)%R) by (apply (Rmult_lt_reg_r (IZR d)); [exact P|]; unfold Rdiv; rewrite Rmult_assoc, Rinv_l, Rmult_1_r, Rmult_1_l by lra; exact B2).
  lra.
Qed.
Definition wholeMag (m : positive) (e : Z) : Z := match e with Zneg p => Z.div (Zpos m) (Z.pow_pos 2 p) | _ => (Zpos m * 2 ^ e)%Z end.
Lemma pow2_IZR p : powerRZ 2 (Zpos p) = IZR (Z.pow_pos 2 p).
Proof.
  cbn [powerRZ]. change (Z.pow_pos 2 p) with (2 ^ Zpos p)%Z. rewrite <- (positive_nat_Z p) at 1. rewrite <- pow_IZR. reflexivity.
Qed.
Lemma wholeMag_spec m e : (IZR (wholeMag m e) <= IZR (Zpos m) * powerRZ 2 e < IZR (wholeMag m e) + 1)%R.
Proof.
  unfold wholeMag. destruct e as [|p|p].
  - change (2 ^ 0)%Z with 1%Z. rewrite Z.mul_1_r. cbn [powerRZ]. lra.
  - rewrite mult_IZR, pow2_IZR. change (2 ^ Zpos p)%Z with (Z.pow_pos 2 p). lra.
  - change (powerRZ 2 (Zneg p)) with (/ powerRZ 2 (Zpos p))%R. rewrite pow2_IZR. apply div_whole.
    change (Z.pow_pos 2 p) with (2 ^ Zpos p)%Z. apply Z.pow_pos_nonneg; lia.
Qed.
Theorem C30_fraction x : ffinite x = true -> (Rabs (fval x) < 2 ^ 63)%R ->
  exists z, ToSortVal (VFloat x) = SInt z /\ (0 <= fval x -> IZR z <= fval x < IZR z + 1)%R /\ (fval x <= 0 -> IZR z - 1 < fval x <= IZR z)%R.
Proof.
  destruct x as [s|s| |s m e]; try discriminate; intros _ B.
  - exists 0%Z. cbn. split; [reflexivity|]. split; intros; lra.
  - cbn [ToSortVal truncZ]. fold (wholeMag m e). pose proof (wholeMag_spec m e) as W. cbn [fval] in *.
    set (r := (IZR (Zpos m) * powerRZ 2 e)%R) in *.
    assert (W0 : (0 <= wholeMag m e)%Z).
    { unfold wholeMag. destruct e as [|p|p]; [lia|apply Z.mul_nonneg_nonneg; [lia|apply Z.pow_nonneg; lia]|apply Z.div_pos; [lia|]].
      change (Z.pow_pos 2 p) with (2 ^ Zpos p)%Z. apply Z.pow_pos_nonneg; lia. }
    assert (R0 : (0 <= r)%R) by (apply IZR_le in W0; lra).
    assert (B2 : (IZR (wholeMag m e) < IZR (2 ^ 63))%R).
    { change (2 ^ 63)%Z with (2 ^ Z.of_nat 63)%Z. rewrite <- pow_IZR. destruct s; [rewrite Rabs_left1 in B by lra|rewrite Rabs_right in B by lra]; lra. }
    apply lt_IZR in B2. exists (cond_Zopp s (wholeMag m e)).
    assert (IN : ((minInt64 <=? cond_Zopp s (wholeMag m e)) && (cond_Zopp s (wholeMag m e) <? - minInt64))%Z = true).
    { apply andb_true_iff. rewrite Z.leb_le, Z.ltb_lt. unfold minInt64. destruct s; cbn [cond_Zopp]; lia. }
    apply IZR_le in W0. rewrite IN. split; [reflexivity|]. destruct s; cbn [cond_Zopp]; [rewrite opp_IZR|]; split; intros; lra.
Qed.
Print Assumptions C30_fraction.
(** 2.75 counts as 2 and -2.75 as -2 *)
Example C30_fraction_example : let x s := S754_finite s 11 (-2) in
  fval (x false) = 2.75%R /\ ffinite (x true) = true /\ (Rabs (fval (x false)) < 2 ^ 63)%R /\ ToSortVal (VFloat (x false)) = SInt 2 /\ ToSortVal (VFloat (x true)) = SInt (-2).
Proof.
  assert (E : fval (S754_finite false 11 (-2)) = 2.75%R) by (cbn [fval]; change (powerRZ 2 (-2)) with (/ (2 * (2 * 1)))%R; lra). cbn beta zeta. rewrite E.
  split; [reflexivity|]. split; [reflexivity|]. split; [rewrite Rabs_right by lra; lra|]. split; reflexivity.
Qed.
