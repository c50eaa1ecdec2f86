(** Checking the hypotheses of the map theorems on concrete maps by listing everything that can be read. *)
From Coq Require Import String List ZArith Bool Arith Lia.
From Verif Require Import Num DynModel DynProofs Prop_C27 MergeProofs.
Import ListNotations.
Local Open Scope list_scope.

Fixpoint listing (n : nat) (h : heap) (a : nat) : option (list (list string * val)) :=
  match n with
  | O => None
  | S m => fold_right (fun kv acc =>
             match acc with
             | None => None
             | Some l => match snd kv with
                         | VMap c => match listing m h c with Some s => Some (([fst kv], snd kv) :: map (fun pv => (fst kv :: fst pv, snd pv)) s ++ l) | None => None end
                         | _ => Some (([fst kv], snd kv) :: l)
                         end
             end) (Some []) (hcell h a)
  end.

Lemma listing_all n : forall h a l, listing n h a = Some l -> forall p v, reads h a p v -> In (p, v) l.
Proof.
  induction n as [|m IH]; intros h a l E p v R; [discriminate|]. cbn [listing] in E.
  destruct p as [|k p]; [destruct (reads_nil _ _ _ R)|]. apply reads_key in R as (u & L & C). apply lookup_In in L. revert l E L.
  generalize (hcell h a). induction l as [|[k' u'] r IHr]; intros l0 E L; [destruct L|]. cbn [fold_right fst snd] in E.
  match type of E with match ?X with _ => _ end = _ => destruct X as [l1|] eqn:EF; [|discriminate] end.
  destruct L as [L|L].
  - injection L as -> ->. destruct C as [[-> ->]|[Hp (c & -> & R)]].
    + destruct v; try (injection E as <-; left; reflexivity). destruct (listing m h a0); [|discriminate]. injection E as <-. left. reflexivity.
    + destruct (listing m h c) as [s|] eqn:S; [|discriminate]. injection E as <-. right. apply in_or_app. left. apply in_map_iff. exists (p, v). split; auto. eapply IH; eauto.
  - specialize (IHr l1 eq_refl L). destruct u'; try (injection E as <-; right; exact IHr). destruct (listing m h a0); [|discriminate]. injection E as <-. right. apply in_or_app. right. exact IHr.
Qed.

Definition addrs (l : list (list string * val)) : list nat := flat_map (fun pv => match snd pv with VMap c => [c] | _ => [] end) l.
Fixpoint distinct (l : list nat) : bool := match l with [] => true | x :: r => negb (existsb (Nat.eqb x) r) && distinct r end.
Fixpoint distinctS (l : list string) : bool := match l with [] => true | x :: r => negb (existsb (String.eqb x) r) && distinctS r end.
Lemma distinctS_ok l : distinctS l = true -> NoDup l.
Proof.
  induction l as [|x r IH]; cbn; [constructor|]. intros H. apply andb_prop in H as [H1 H2]. constructor; auto. intros I.
  apply negb_true_iff in H1. assert (existsb (String.eqb x) r = true); [|congruence]. apply existsb_exists. exists x. split; auto. apply String.eqb_refl.
Qed.
Definition okNested (n : nat) (h : heap) (a : nat) : bool :=
  match listing n h a with
  | Some l => distinct (a :: addrs l) && forallb (fun c => c <? hnext h) (a :: addrs l) && forallb (fun pv => match snd pv with VStrMap _ => false | _ => true end) l
  | None => false
  end.
Definition okKeys (n : nat) (h : heap) (a : nat) : bool :=
  match listing n h a with
  | Some l => forallb (fun c => distinctS (map fst (hcell h c)) && forallb dotFree (map fst (hcell h c))) (a :: addrs l)
  | None => false
  end.
Definition okDeep (n d : nat) (h : heap) (a : nat) : bool :=
  match listing n h a with Some l => forallb (fun pv => length (fst pv) <=? d) l | None => false end.
Definition okApart (n : nat) (h : heap) (a b : nat) : bool :=
  match listing n h a, listing n h b with Some l, Some l2 => forallb (fun c => negb (existsb (Nat.eqb c) (b :: addrs l2))) (a :: addrs l) | _, _ => false end.

Lemma in_addrs l p c : In (p, VMap c) l -> In c (addrs l).
Proof. intros I. apply in_flat_map. exists (p, VMap c). split; auto. left. reflexivity. Qed.
Lemma addrs_inj l p q c : distinct (addrs l) = true -> In (p, VMap c) l -> In (q, VMap c) l -> p = q.
Proof.
  induction l as [|[p0 v0] r IH]; intros D I1 I2; [destruct I1|].
  assert (D2 : distinct (addrs r) = true) by (destruct v0; try exact D; cbn in D; apply andb_prop in D; apply D).
  assert (X : forall s, In (s, VMap c) r -> v0 <> VMap c).
  { intros s I ->. change (distinct (c :: addrs r) = true) in D. cbn [distinct] in D. apply andb_prop in D as [D _]. apply negb_true_iff in D. assert (existsb (Nat.eqb c) (addrs r) = true); [|congruence].
    apply existsb_exists. exists c. split; [eapply in_addrs; eauto|apply Nat.eqb_refl]. }
  destruct I1 as [E1|I1], I2 as [E2|I2]; [congruence|injection E1 as _ ->; destruct (X _ I2 eq_refl)|injection E2 as _ ->; destruct (X _ I1 eq_refl)|auto].
Qed.
Lemma reach_addrs n h a l p c : listing n h a = Some l -> reach h a p c -> In c (a :: addrs l).
Proof. intros E [[_ ->]|R]; [left; auto|right; eapply in_addrs, listing_all; eauto]. Qed.

Lemma okNested_ok n h a : okNested n h a = true -> nested h a.
Proof.
  unfold okNested. destruct (listing n h a) as [l|] eqn:E; [|discriminate]. intros H. apply andb_prop in H as [H H3]. apply andb_prop in H as [H1 H2].
  cbn [distinct] in H1. apply andb_prop in H1 as [H0 H1]. rewrite forallb_forall in H2, H3. pose proof (listing_all n h a l E) as A.
  assert (NR : forall p, ~ reads h a p (VMap a)).
  { intros p R. apply negb_true_iff in H0. assert (existsb (Nat.eqb a) (addrs l) = true); [|congruence]. apply existsb_exists. exists a. split; [eapply in_addrs; eauto|apply Nat.eqb_refl]. }
  constructor.
  - intros p q c [[-> ->]|R1] [[-> E2]|R2]; subst; auto; [destruct (NR _ R2)|destruct (NR _ R1)|]. eapply addrs_inj; eauto.
  - intros p c R. apply Nat.ltb_lt, H2. eapply reach_addrs; eauto.
  - intros p s R. apply A in R. apply H3 in R. discriminate.
Qed.
Lemma okKeys_ok n h a : okKeys n h a = true -> goodKeys h a.
Proof.
  unfold okKeys. destruct (listing n h a) as [l|] eqn:E; [|discriminate]. intros H p c R. rewrite forallb_forall in H.
  specialize (H c (reach_addrs n h a l p c E R)). apply andb_prop in H as [H1 H2]. split; [apply distinctS_ok; auto|]. rewrite forallb_forall in H2. exact H2.
Qed.
Lemma okDeep_ok n d h a : okDeep n d h a = true -> deep h a d.
Proof.
  unfold okDeep. destruct (listing n h a) as [l|] eqn:E; [|discriminate]. intros H p v R. rewrite forallb_forall in H.
  apply Nat.leb_le, (H (p, v)). eapply listing_all; eauto.
Qed.
Lemma okApart_ok n h a b : okApart n h a b = true -> disjoint h a b.
Proof.
  unfold okApart. destruct (listing n h a) as [l|] eqn:E; [|discriminate]. destruct (listing n h b) as [l2|] eqn:E2; [|discriminate].
  intros H p q c R1 R2. rewrite forallb_forall in H. specialize (H c (reach_addrs n h a l p c E R1)). apply negb_true_iff in H.
  assert (existsb (Nat.eqb c) (b :: addrs l2) = true); [|congruence]. apply existsb_exists. exists c. split; [eapply reach_addrs; eauto|apply Nat.eqb_refl].
Qed.
