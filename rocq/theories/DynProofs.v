(** Reading and writing nested maps. *)
From Coq Require Import String List ZArith Bool Ascii Arith Lia.
From Verif Require Import Num DynModel.
Import ListNotations.
Local Open Scope list_scope.

Section Assoc.
Context {A : Type}.
Implicit Types l : list (string * A).
Lemma lookup_set_same k v l : lookup k (set k v l) = Some v.
Proof. induction l as [|[k' v'] r IH]; cbn [set lookup]; [rewrite String.eqb_refl; auto|]. destruct (String.eqb k k') eqn:E; cbn [lookup]; rewrite E; auto. Qed.
Lemma lookup_set_other k k' v l : k <> k' -> lookup k' (set k v l) = lookup k' l.
Proof.
  intros H. induction l as [|[k2 v2] r IH]; cbn [set lookup].
  - destruct (String.eqb_spec k' k); [congruence|reflexivity].
  - destruct (String.eqb_spec k k2) as [->|]; cbn [lookup]; [destruct (String.eqb_spec k' k2); [congruence|reflexivity]|]. rewrite IH. reflexivity.
Qed.
Lemma lookup_del_same k l : lookup k (del k l) = None.
Proof. induction l as [|[k' v'] r IH]; cbn [del lookup]; auto. destruct (String.eqb k k') eqn:E; cbn [lookup]; [auto|]. rewrite E. auto. Qed.
Lemma lookup_del_other k k' l : k <> k' -> lookup k' (del k l) = lookup k' l.
Proof.
  intros H. induction l as [|[k2 v2] r IH]; cbn [del lookup]; auto. destruct (String.eqb_spec k k2) as [->|]; cbn [lookup].
  - rewrite IH. destruct (String.eqb_spec k' k2); [congruence|reflexivity].
  - rewrite IH. reflexivity.
Qed.
End Assoc.

(** *** specification: what can be read by following keys through maps *)
Inductive reads (h : heap) : nat -> list string -> val -> Prop :=
| rd_one a k v : lookup k (hcell h a) = Some v -> reads h a [k] v
| rd_more a k b k2 ks v : lookup k (hcell h a) = Some (VMap b) -> reads h b (k2 :: ks) v -> reads h a (k :: k2 :: ks) v.
(** the map found by following keys *)
Definition reach (h : heap) (a : nat) (p : list string) (b : nat) : Prop := (p = [] /\ b = a) \/ reads h a p (VMap b).
(** no map is found in two ways *)
Definition noShare (h : heap) (a : nat) : Prop := forall p q b, reach h a p b -> reach h a q b -> p = q.
(** all maps found exist *)
Definition closed (h : heap) (a : nat) : Prop := forall p b, reach h a p b -> b < hnext h.
Definition prefix (p q : list string) : Prop := exists r, q = p ++ r.

Lemma reads_cons h a k k2 ks v : reads h a (k :: k2 :: ks) v <-> exists b, lookup k (hcell h a) = Some (VMap b) /\ reads h b (k2 :: ks) v.
Proof. split; [intros H; inversion H; subst; eauto|intros (b & H1 & H2); econstructor; eauto]. Qed.
Lemma reads_one h a k v : reads h a [k] v <-> lookup k (hcell h a) = Some v.
Proof. split; [intros H; inversion H; subst; auto|constructor; auto]. Qed.
Lemma reads_nil h a v : ~ reads h a [] v. Proof. intros H; inversion H. Qed.
Lemma reads_fun h p : forall a v w, reads h a p v -> reads h a p w -> v = w.
Proof.
  induction p as [|k [|k2 r] IH]; intros a v w H1 H2; [destruct (reads_nil _ _ _ H1)| |].
  - apply reads_one in H1, H2. congruence.
  - apply reads_cons in H1 as (b & L1 & R1), H2 as (b' & L2 & R2). assert (b' = b) by congruence. subst. eauto.
Qed.
Lemma reach_nil h a : reach h a [] a. Proof. left; auto. Qed.
Lemma reach_cons h a k p b : reach h a (k :: p) b <-> exists c, lookup k (hcell h a) = Some (VMap c) /\ reach h c p b.
Proof.
  split.
  - intros [[H _]|H]; [discriminate|]. destruct p as [|k2 r].
    + apply reads_one in H. exists b. split; auto. apply reach_nil.
    + apply reads_cons in H as (c & L & R). exists c. split; auto. right. auto.
  - intros (c & L & [[-> ->]|R]); right; [constructor; auto|]. destruct p as [|k2 r]; [destruct (reads_nil _ _ _ R)|]. econstructor; eauto.
Qed.
Lemma reads_app h p : forall a b q v, reach h a p b -> reads h b q v -> reads h a (p ++ q) v.
Proof.
  induction p as [|k r IH]; intros a b q v H1 H2.
  - destruct H1 as [[_ ->]|H1]; [auto|destruct (reads_nil _ _ _ H1)].
  - apply reach_cons in H1 as (c & L & R). cbn [app]. pose proof (IH c b q v R H2) as H. destruct (r ++ q) as [|k2 t] eqn:E; [destruct (reads_nil _ _ _ H)|]. econstructor; eauto.
Qed.
Lemma reach_fun h p : forall a b c, reach h a p b -> reach h a p c -> b = c.
Proof.
  induction p as [|k r IH]; intros a b c H1 H2.
  - destruct H1 as [[_ ->]|H1], H2 as [[_ ->]|H2]; auto; exfalso; eapply reads_nil; eauto.
  - apply reach_cons in H1 as (d & L1 & R1), H2 as (e & L2 & R2). assert (e = d) by congruence. subst. eauto.
Qed.
Lemma noShare_sub h a k b : noShare h a -> lookup k (hcell h a) = Some (VMap b) -> noShare h b.
Proof.
  intros N L p q c H1 H2. assert (k :: p = k :: q) by (eapply (N (k :: p) (k :: q) c); apply reach_cons; eauto). congruence.
Qed.
Lemma closed_sub h a k b : closed h a -> lookup k (hcell h a) = Some (VMap b) -> closed h b.
Proof. intros C L p c H. apply (C (k :: p)). apply reach_cons; eauto. Qed.

(** changing cells that are not reached changes nothing that is read *)
Lemma reads_frame h h' p : forall a v, (forall q b, reach h a q b -> hcell h' b = hcell h b) -> reads h' a p v <-> reads h a p v.
Proof.
  induction p as [|k [|k2 r] IH]; intros a v H.
  - split; intros R; destruct (reads_nil _ _ _ R).
  - rewrite !reads_one, (H [] a (reach_nil h a)). reflexivity.
  - rewrite !reads_cons, (H [] a (reach_nil h a)). split; intros (b & L & R); exists b; split; auto;
      apply (IH b v); auto; intros q c Q; apply (H (k :: q)); apply reach_cons; eauto.
Qed.
Lemma reach_frame h h' a p b : (forall q c, reach h a q c -> hcell h' c = hcell h c) -> reach h' a p b <-> reach h a p b.
Proof. intros H. unfold reach. rewrite (reads_frame h h' p a (VMap b) H). reflexivity. Qed.

Lemma store_same h a l : hcell (store h a l) a = l. Proof. cbn. rewrite Nat.eqb_refl. reflexivity. Qed.
Lemma store_other h a b l : a <> b -> hcell (store h a l) b = hcell h b.
Proof. intros H. cbn. apply Nat.eqb_neq in H. rewrite H. reflexivity. Qed.

(** *** PutWithDot, the loop *)
(** no map[string]string lies on the way *)
Definition noStrMap (h : heap) (a : nat) (ks : list string) : Prop := forall p q l, ks = p ++ q -> q <> [] -> ~ reads h a p (VStrMap l).

Record putOk (h : heap) (a : nat) (ks : list string) (v : val) (h' : heap) : Prop := mkPutOk {
  po_read : reads h' a ks v;
  po_next : hnext h <= hnext h';
  po_frame : forall c, c < hnext h -> (forall p q, ks = p ++ q -> q <> [] -> ~ reach h a p c) -> hcell h' c = hcell h c;
  po_else : forall q w, ~ prefix q ks -> ~ prefix ks q -> (reads h' a q w <-> reads h a q w);
  po_root : forall k, [k] <> firstn 1 ks -> lookup k (hcell h' a) = lookup k (hcell h a) }.

Lemma putDots_ok ks v : ks <> [] -> forall h a h', noShare h a -> closed h a -> noStrMap h a ks -> putDots h a ks v = Ok h' -> putOk h a ks v h'.
Proof.
  induction ks as [|k r IH]; intros Hne h a h' NS CL SM E; [congruence|]. destruct r as [|k2 r].
  - cbn in E. injection E as <-. constructor.
    + constructor. unfold Put. rewrite store_same. apply lookup_set_same.
    + cbn. lia.
    + intros c Hc H. apply store_other. intros <-. apply (H [] [k]); [reflexivity|discriminate|apply reach_nil].
    + intros q w Q1 Q2. destruct q as [|k' q']; [exfalso; apply Q1; exists [k]; reflexivity|].
      assert (k <> k'). { intros <-. apply Q2. exists q'. reflexivity. }
      assert (L : lookup k' (hcell (Put h a k v) a) = lookup k' (hcell h a)).
      { unfold Put. rewrite store_same. apply lookup_set_other; auto. }
      destruct q' as [|k3 q3]; [rewrite !reads_one, L; reflexivity|]. rewrite !reads_cons, L.
      assert (S : forall b, lookup k' (hcell h a) = Some (VMap b) -> reads (Put h a k v) b (k3 :: q3) w <-> reads h b (k3 :: q3) w).
      { intros b Lb. apply reads_frame. intros q c Q. apply store_other. intros <-.
        assert ([] = k' :: q); [|discriminate]. apply (NS [] (k' :: q) a); [apply reach_nil|]. apply reach_cons. eauto. }
      split; intros (b & Lb & R); exists b; split; auto; apply S; auto.
    + intros k' Hk. unfold Put. rewrite store_same. apply lookup_set_other. intros <-. apply Hk. reflexivity.
  - cbn [putDots] in E. destruct (lookup k (hcell h a)) as [v0|] eqn:L.
    + assert (exists b, v0 = VMap b) as [b ->].
      { destruct v0; try discriminate; [eauto|]. exfalso. eapply (SM [k] (k2 :: r)); [reflexivity|discriminate|]. constructor. exact L. }
      pose proof (noShare_sub _ _ _ _ NS L) as NSb. pose proof (closed_sub _ _ _ _ CL L) as CLb.
      assert (SMb : noStrMap h b (k2 :: r)).
      { intros p q l E1 E2 R. eapply (SM (k :: p) q); [cbn; rewrite E1; reflexivity|exact E2|]. eapply (reads_app h [k]); [apply reach_cons; exists b; split; [exact L|apply reach_nil]|exact R]. }
      assert (AB : forall p q, k2 :: r = p ++ q -> q <> [] -> ~ reach h b p a).
      { intros p q _ _ R. assert ([] = k :: p); [|discriminate]. apply (NS [] (k :: p) a); [apply reach_nil|apply reach_cons; eauto]. }
      assert (NE : k2 :: r <> []) by discriminate.
      destruct (IH NE h b h' NSb CLb SMb E) as [R NX FR EL RT]. clear IH NE. pose proof (FR a (CL [] a (reach_nil h a)) AB) as CA. constructor.
      * econstructor; [rewrite CA; exact L|exact R].
      * exact NX.
      * intros c Hc H. apply FR; auto. intros p q E1 E2 R'. apply (H (k :: p) q); [cbn; rewrite E1; reflexivity|exact E2|apply reach_cons; eauto].
      * intros q w Q1 Q2. destruct q as [|k' q']; [exfalso; apply Q1; exists (k :: k2 :: r); reflexivity|].
        destruct (string_dec k k') as [<-|Hk].
        { destruct q' as [|k3 q3]; [exfalso; apply Q1; exists (k2 :: r); reflexivity|]. rewrite !reads_cons, CA, L.
          assert (S : reads h' b (k3 :: q3) w <-> reads h b (k3 :: q3) w).
          { apply EL; [intros [t Et]; apply Q1; exists t; cbn; rewrite Et; reflexivity|intros [t Et]; apply Q2; exists t; cbn; rewrite Et; reflexivity]. }
          split; intros (c & Ec & Rc); injection Ec as <-; exists b; split; auto; apply S; auto. }
        { destruct q' as [|k3 q3]; [rewrite !reads_one, CA; reflexivity|]. rewrite !reads_cons, CA.
          assert (S : forall c, lookup k' (hcell h a) = Some (VMap c) -> reads h' c (k3 :: q3) w <-> reads h c (k3 :: q3) w).
          { intros c Lc. apply reads_frame. intros q d Qd. apply FR; [apply (CL (k' :: q)); apply reach_cons; eauto|].
            intros p t _ _ Rp. assert (k :: p = k' :: q) by (apply (NS (k :: p) (k' :: q) d); apply reach_cons; eauto). congruence. }
          split; intros (c & Lc & Rc); exists c; split; auto; apply S; auto. }
      * intros k' _. rewrite CA. reflexivity.
    + destruct (alloc h) as [b h1] eqn:EA. unfold alloc in EA. injection EA as <- <-. set (h1 := mkHeap _ _) in E. set (b := hnext h) in *.
      set (h2 := Put h1 a k (VMap b)) in *.
      assert (AB : a < b) by (apply (CL [] a), reach_nil).
      assert (C2 : forall c, c <> a -> c <> b -> hcell h2 c = hcell h c).
      { intros c Ca Cb. unfold h2, Put. rewrite store_other by congruence. cbn. destruct (Nat.eqb_spec b c); [congruence|reflexivity]. }
      assert (CA2 : hcell h2 a = set k (VMap b) (hcell h a)).
      { unfold h2, Put. rewrite store_same. cbn. destruct (Nat.eqb_spec b a); [lia|reflexivity]. }
      assert (CB2 : hcell h2 b = []). { unfold h2, Put. rewrite store_other by lia. cbn. destruct (Nat.eqb_spec b b); [reflexivity|congruence]. }
      assert (RB : forall p c, reach h2 b p c -> p = [] /\ c = b).
      { intros p c H. destruct p as [|k' p]; [split; auto; eapply reach_fun; [exact H|apply reach_nil]|]. apply reach_cons in H as (d & Ld & _). rewrite CB2 in Ld. discriminate. }
      assert (RDB : forall p w, ~ reads h2 b p w).
      { intros p w H. destruct p as [|k1 [|k3 t]]; [eapply reads_nil; eauto|apply reads_one in H; rewrite CB2 in H; discriminate|].
        apply reads_cons in H as (d & Ld & _). rewrite CB2 in Ld. discriminate. }
      assert (IHb : putOk h2 b (k2 :: r) v h').
      { apply IH; [discriminate| | | |exact E].
        - intros p q c H1 H2. destruct (RB _ _ H1), (RB _ _ H2). congruence.
        - intros p c H. destruct (RB _ _ H). subst. cbn. lia.
        - intros p q l _ _ H. eapply RDB; eauto. }
      destruct IHb as [R NX FR EL RT].
      assert (FR2 : forall c, c < hnext h -> hcell h' c = hcell h2 c).
      { intros c Hc. apply FR; [cbn; lia|]. intros p q _ _ H. destruct (RB _ _ H). subst. lia. }
      pose proof (FR2 a AB) as CA. rewrite CA2 in CA. constructor.
      * econstructor; [rewrite CA; apply lookup_set_same|exact R].
      * unfold h2, h1 in NX. cbn in NX. lia.
      * intros c Hc H. rewrite FR2 by auto. apply C2; [|unfold b; lia]. intros ->. apply (H [] (k :: k2 :: r)); [reflexivity|discriminate|apply reach_nil].
      * intros q w Q1 Q2. destruct q as [|k' q']; [exfalso; apply Q1; exists (k :: k2 :: r); reflexivity|].
        destruct (string_dec k k') as [<-|Hk].
        { destruct q' as [|k3 q3]; [exfalso; apply Q1; exists (k2 :: r); reflexivity|]. rewrite !reads_cons, CA, lookup_set_same, L.
          split; [|intros (c & Ec & _); discriminate]. intros (c & Ec & Rc). injection Ec as <-.
          apply EL in Rc; [exfalso; eapply RDB; eauto| |]; intros [t Et]; [apply Q1|apply Q2]; exists t; cbn; rewrite Et; reflexivity. }
        { destruct q' as [|k3 q3]; [rewrite !reads_one, CA, lookup_set_other by auto; reflexivity|]. rewrite !reads_cons, CA, lookup_set_other by auto.
          assert (S : forall c, lookup k' (hcell h a) = Some (VMap c) -> reads h' c (k3 :: q3) w <-> reads h c (k3 :: q3) w).
          { intros c Lc. apply reads_frame. intros q d Qd. assert (D : d < hnext h) by (apply (CL (k' :: q)); apply reach_cons; eauto).
            rewrite FR2 by auto. apply C2; [|unfold b; lia]. intros ->.
            assert ([] = k' :: q); [|discriminate]. apply (NS [] (k' :: q) a); [apply reach_nil|apply reach_cons; eauto]. }
          split; intros (c & Lc & Rc); exists c; split; auto; apply S; auto. }
      * intros k' Hk. rewrite CA. apply lookup_set_other. intros <-. apply Hk. reflexivity.
Qed.

(** *** dotted keys *)
Fixpoint dotFree (s : string) : bool := match s with EmptyString => true | String c r => negb (Ascii.eqb c "."%char) && dotFree r end.
Lemma splitDots_nonempty s : splitDots s <> [].
Proof. destruct s as [|c r]; [discriminate|]. cbn. destruct (Ascii.eqb c "."%char); [discriminate|]. destruct (splitDots r); discriminate. Qed.
Lemma splitDots_free s : dotFree s = true <-> splitDots s = [s].
Proof.
  induction s as [|c r IH]; [split; reflexivity|]. cbn [dotFree splitDots]. destruct (Ascii.eqb c "."%char) eqn:E; cbn [negb andb].
  - split; [discriminate|]. destruct (splitDots r); discriminate.
  - rewrite IH. split; [intros ->; reflexivity|]. destruct (splitDots r) as [|w ws] eqn:E2; [destruct (splitDots_nonempty _ E2)|]. intros H; injection H as -> ->. reflexivity.
Qed.
Lemma splitDots_one s w : splitDots s = [w] -> w = s.
Proof.
  revert w. induction s as [|c r IH]; intros w; cbn [splitDots]; [intros H; injection H as <-; reflexivity|].
  destruct (Ascii.eqb c "."%char); [destruct (splitDots r) eqn:E; [destruct (splitDots_nonempty _ E)|discriminate]|].
  destruct (splitDots r) as [|x xs] eqn:E; [destruct (splitDots_nonempty _ E)|]. intros H; injection H as <- ->. f_equal. apply IH. reflexivity.
Qed.

Lemma reads_walk h ks : forall a v, reads h a ks v -> walk h (hcell h a) ks = Some v.
Proof.
  induction ks as [|k [|k2 r] IH]; intros a v H; [destruct (reads_nil _ _ _ H)|apply reads_one in H; exact H|].
  apply reads_cons in H as (b & L & R). cbn [walk]. rewrite L. cbn [entries]. apply IH. exact R.
Qed.
Lemma walk_reads h ks : forall a v, noStrMap h a ks -> walk h (hcell h a) ks = Some v -> reads h a ks v.
Proof.
  induction ks as [|k [|k2 r] IH]; intros a v SM H; [discriminate|constructor; exact H|]. cbn [walk] in H.
  destruct (lookup k (hcell h a)) as [v0|] eqn:L; [|discriminate].
  destruct v0; cbn [entries] in H; try discriminate.
  - econstructor; [exact L|]. apply IH; [|exact H]. intros p q l E1 E2 R. eapply (SM (k :: p) q); [cbn; rewrite E1; reflexivity|exact E2|].
    eapply (reads_app h [k]); [apply reach_cons; eexists; split; [exact L|apply reach_nil]|exact R].
  - exfalso. eapply (SM [k] (k2 :: r)); [reflexivity|discriminate|]. constructor. exact L.
Qed.

Lemma splitDots_parts s : Forall (fun w => dotFree w = true) (splitDots s).
Proof.
  induction s as [|c r IH]; [repeat constructor|]. cbn [splitDots]. destruct (Ascii.eqb c "."%char) eqn:E; [constructor; auto|].
  destruct (splitDots r) as [|w ws]; [constructor; [cbn; rewrite E; reflexivity|constructor]|]. inversion IH; subst. constructor; auto. cbn. rewrite E. auto.
Qed.

(** *** Remove, the loop *)
Record removeOk (h : heap) (a : nat) (ks : list string) (h' : heap) (o : option val) : Prop := mkRemoveOk {
  ro_value : forall v, o = Some v <-> reads h a ks v;
  ro_gone : forall v, ~ reads h' a ks v;
  ro_frame : forall c, (forall p q, ks = p ++ q -> q <> [] -> ~ reach h a p c) -> hcell h' c = hcell h c;
  ro_else : forall q w, ~ prefix ks q -> (reads h' a q w <-> reads h a q w);
  ro_root : forall k, [k] <> firstn 1 ks -> lookup k (hcell h' a) = lookup k (hcell h a) }.

Lemma remove_nothing h a ks : (forall v, ~ reads h a ks v) -> removeOk h a ks h None.
Proof. intros H. constructor; auto; [|tauto]. intros v. split; [discriminate|]. intros R. destruct (H v R). Qed.

Lemma removeDots_ok ks : ks <> [] -> forall h a, noShare h a -> noStrMap h a ks -> removeOk h a ks (fst (removeDots h a ks)) (snd (removeDots h a ks)).
Proof.
  induction ks as [|k r IH]; intros Hne h a NS SM; [congruence|]. cbn [removeDots]. destruct (lookup k (hcell h a)) as [v0|] eqn:L.
  2:{ cbn [fst snd]. apply remove_nothing. intros v R. destruct r as [|k2 r]; [apply reads_one in R; congruence|]. apply reads_cons in R as (b & Lb & _). congruence. }
  destruct r as [|k2 r].
  - cbn [fst snd]. set (h' := store h a (del k (hcell h a))). assert (CA : hcell h' a = del k (hcell h a)) by apply store_same. constructor.
    + intros v. rewrite reads_one, L. split; congruence.
    + intros v R. apply reads_one in R. rewrite CA, lookup_del_same in R. discriminate.
    + intros c H. apply store_other. intros <-. apply (H [] [k]); [reflexivity|discriminate|apply reach_nil].
    + intros q w Q. destruct q as [|k' q']; [split; intros R; destruct (reads_nil _ _ _ R)|].
      assert (k <> k'). { intros <-. apply Q. exists q'. reflexivity. }
      destruct q' as [|k3 q3]; [rewrite !reads_one, CA, lookup_del_other by auto; reflexivity|]. rewrite !reads_cons, CA, lookup_del_other by auto.
      assert (S : forall b, lookup k' (hcell h a) = Some (VMap b) -> reads h' b (k3 :: q3) w <-> reads h b (k3 :: q3) w).
      { intros b Lb. apply reads_frame. intros q c Qc. apply store_other. intros <-.
        assert ([] = k' :: q); [|discriminate]. apply (NS [] (k' :: q) a); [apply reach_nil|]. apply reach_cons. eauto. }
      split; intros (b & Lb & R); exists b; split; auto; apply S; auto.
    + intros k' Hk. rewrite CA. apply lookup_del_other. intros <-. apply Hk. reflexivity.
  - assert (NV : forall v0, lookup k (hcell h a) = Some v0 -> (forall b, v0 <> VMap b) -> forall v, ~ reads h a (k :: k2 :: r) v).
    { intros u Lu Hu v R. apply reads_cons in R as (b & Lb & _). apply (Hu b). congruence. }
    destruct v0; try (cbn [fst snd]; apply remove_nothing; apply (NV _ L); discriminate).
    2:{ exfalso. eapply (SM [k] (k2 :: r)); [reflexivity|discriminate|]. constructor. exact L. }
    rename a0 into b. clear NV.
    pose proof (noShare_sub _ _ _ _ NS L) as NSb.
    assert (SMb : noStrMap h b (k2 :: r)).
    { intros p q l E1 E2 R. eapply (SM (k :: p) q); [cbn; rewrite E1; reflexivity|exact E2|]. eapply (reads_app h [k]); [apply reach_cons; exists b; split; [exact L|apply reach_nil]|exact R]. }
    assert (NE : k2 :: r <> []) by discriminate. specialize (IH NE h b NSb SMb). set (h' := fst _) in *. set (o := snd _) in *. clearbody h' o.
    destruct IH as [VA GO FR EL RT].
    assert (CA : hcell h' a = hcell h a).
    { apply FR. intros p q _ _ R. assert ([] = k :: p); [|discriminate]. apply (NS [] (k :: p) a); [apply reach_nil|apply reach_cons; eauto]. }
    constructor.
    + intros v. rewrite VA, reads_cons. split; [intros R; exists b; auto|]. intros (c & Lc & R). rewrite L in Lc. injection Lc as <-. exact R.
    + intros v R. apply reads_cons in R as (c & Lc & R). rewrite CA, L in Lc. injection Lc as <-. apply (GO v R).
    + intros c H. apply FR. intros p q E1 E2 R. apply (H (k :: p) q); [cbn; rewrite E1; reflexivity|exact E2|apply reach_cons; eauto].
    + intros q w Q. destruct q as [|k' q']; [split; intros R; destruct (reads_nil _ _ _ R)|].
      destruct q' as [|k3 q3]; [rewrite !reads_one, CA; reflexivity|]. rewrite !reads_cons, CA.
      assert (S : forall c, lookup k' (hcell h a) = Some (VMap c) -> reads h' c (k3 :: q3) w <-> reads h c (k3 :: q3) w).
      { intros c Lc. destruct (string_dec k k') as [<-|Hk].
        - assert (c = b) by congruence. subst c. apply EL. intros [t Et]. apply Q. exists t. cbn. rewrite Et. reflexivity.
        - apply reads_frame. intros q d Qd. apply FR. intros p t _ _ Rp.
          assert (k :: p = k' :: q) by (apply (NS (k :: p) (k' :: q) d); apply reach_cons; eauto). congruence. }
      split; intros (c & Lc & R); exists c; split; auto; apply S; auto.
    + intros k' _. rewrite CA. reflexivity.
Qed.

Lemma putDots_error ks v : ks <> [] -> forall h a, closed h a -> noStrMap h a ks ->
  (putDots h a ks v = Err <-> exists p q w, ks = p ++ q /\ q <> [] /\ reads h a p w /\ (forall b, w <> VMap b)) /\
  (putDots h a ks v = Err \/ exists h', putDots h a ks v = Ok h').
Proof.
  induction ks as [|k r IH]; intros Hne h a CL SM; [congruence|]. destruct r as [|k2 r].
  - cbn. split; [|eauto]. split; [discriminate|]. intros (p & q & w & E1 & E2 & R & _). destruct p as [|k' p]; [destruct (reads_nil _ _ _ R)|].
    injection E1 as <- E1. destruct p; [|discriminate]. cbn in E1. congruence.
  - cbn [putDots]. destruct (lookup k (hcell h a)) as [v0|] eqn:L.
    + assert (BAD : (forall b, v0 <> VMap b) -> exists p q w, k :: k2 :: r = p ++ q /\ q <> [] /\ reads h a p w /\ (forall b, w <> VMap b)).
      { intros H. exists [k], (k2 :: r), v0. repeat split; auto; [discriminate|constructor; auto]. }
      destruct v0; try (split; [split; [intros _; apply BAD; discriminate|reflexivity]|left; reflexivity]).
      2:{ exfalso. eapply (SM [k] (k2 :: r)); [reflexivity|discriminate|]. constructor. exact L. }
      rename a0 into b. assert (SMb : noStrMap h b (k2 :: r)).
      { intros p q l E1 E2 R. eapply (SM (k :: p) q); [cbn; rewrite E1; reflexivity|exact E2|]. eapply (reads_app h [k]); [apply reach_cons; exists b; split; [exact L|apply reach_nil]|exact R]. }
      assert (NE : k2 :: r <> []) by discriminate. destruct (IH NE h b (closed_sub _ _ _ _ CL L) SMb) as [I1 I2]. split; [|exact I2].
      assert (SW : (exists p q w, k2 :: r = p ++ q /\ q <> [] /\ reads h b p w /\ (forall b, w <> VMap b)) <->
        (exists p q w, k :: k2 :: r = p ++ q /\ q <> [] /\ reads h a p w /\ (forall b, w <> VMap b))).
      { split.
        - intros (p & q & w & E1 & E2 & R & W). exists (k :: p), q, w. split; [cbn; rewrite E1; reflexivity|]. split; [exact E2|]. split; [|exact W].
          eapply (reads_app h [k]); [apply reach_cons; exists b; split; [exact L|apply reach_nil]|exact R].
        - intros (p & q & w & E1 & E2 & R & W). destruct p as [|k' p]; [destruct (reads_nil _ _ _ R)|]. injection E1 as <- E1.
          destruct p as [|k3 p]; [apply reads_one in R; exfalso; apply (W b); congruence|]. apply reads_cons in R as (c & Lc & R).
          assert (c = b) by congruence. subst c. exists (k3 :: p), q, w. auto. }
      rewrite <- SW. exact I1.
    + destruct (alloc h) as [b h1] eqn:EA. unfold alloc in EA. injection EA as <- <-. set (h1 := mkHeap _ _). set (b := hnext h) in *. set (h2 := Put h1 a k (VMap b)).
      assert (SUC : forall ks h b, ks <> [] -> hcell h b = [] -> b < hnext h -> exists h', putDots h b ks v = Ok h').
      { clear. induction ks as [|k [|k2 r] IH]; intros h b Hne CB LT; [congruence|cbn; eauto|]. cbn [putDots]. rewrite CB. cbn [lookup].
        destruct (alloc h) as [c h1] eqn:EA. unfold alloc in EA. injection EA as <- <-. apply IH; [discriminate| |cbn; lia].
        unfold Put. rewrite store_other by lia. cbn. rewrite Nat.eqb_refl. reflexivity. }
      assert (AB : a < hnext h) by (apply (CL [] a), reach_nil).
      destruct (SUC (k2 :: r) h2 b) as [h' E]; [discriminate| |cbn; lia|].
      { unfold h2, Put. rewrite store_other by (unfold b; lia). cbn. rewrite Nat.eqb_refl. reflexivity. }
      cbn [putDots] in E. rewrite E. split; [|eauto]. split; [discriminate|]. intros (p & q & w & E1 & E2 & R & _). exfalso. destruct p as [|k' p]; [destruct (reads_nil _ _ _ R)|].
      injection E1 as <- E1. destruct p as [|k3 p]; [apply reads_one in R; congruence|]. apply reads_cons in R as (c & Lc & _). congruence.
Qed.

Lemma prefix_dec p : forall q, {prefix p q} + {~ prefix p q}.
Proof.
  induction p as [|k r IH]; intros q; [left; exists q; reflexivity|]. destruct q as [|k' q]; [right; intros [t E]; discriminate|].
  destruct (string_dec k k') as [->|H]; [|right; intros [t E]; cbn in E; congruence].
  destruct (IH q) as [Y|Y]; [left; destruct Y as [t ->]; exists t; reflexivity|right; intros [t E]; apply Y; exists t; cbn in E; congruence].
Qed.
Lemma reads_through h p : forall a k t v, p <> [] -> reads h a (p ++ k :: t) v -> exists b, reads h a p (VMap b).
Proof.
  induction p as [|k0 r IH]; intros a k t v Hne R; [congruence|]. cbn [app] in R.
  destruct r as [|k1 r]; [apply reads_cons in R as (b & L & _); exists b; constructor; auto|].
  cbn [app] in R. apply reads_cons in R as (b & L & R). destruct (IH b k t v) as [c Rc]; [discriminate|exact R|]. exists c. econstructor; eauto.
Qed.
