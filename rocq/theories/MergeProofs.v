(** Merging nested maps. *)
From Coq Require Import String List ZArith Bool Ascii Arith Lia.
From Verif Require Import Num DynModel DynProofs Prop_C27.
Import ListNotations.
Local Open Scope list_scope.

Definition leaf (v : val) : Prop := forall b, v <> VMap b.
(** each key once, and without dots, in the maps found from [a] *)
Definition goodKeys (h : heap) (a : nat) : Prop := forall p c, reach h a p c ->
  NoDup (map fst (hcell h c)) /\ forall k, In k (map fst (hcell h c)) -> dotFree k = true.
Definition disjoint (h : heap) (a b : nat) : Prop := forall p q c, reach h a p c -> ~ reach h b q c.
Definition deep (h : heap) (b n : nat) : Prop := forall p v, reads h b p v -> length p <= n.

(** every value of [b] on the way to [p], and at [p], is a map *)
Definition throughMaps (h : heap) (b : nat) (p : list string) : Prop := forall q w, prefix q p -> reads h b q w -> ~ leaf w.
(** what the merge of [b] into [a] holds at [p]: a leaf of [b], or a leaf of [a] where [b] has nothing, nor a leaf on the way;
    a map of [b], or a map of [a] with no leaf of [b] there or on the way *)
Definition leafMerge (h : heap) (a b : nat) (p : list string) (v : val) : Prop :=
  reads h b p v \/ (reads h a p v /\ throughMaps h b p /\ forall w, ~ reads h b p w).
Definition mapMerge (h : heap) (a b : nat) (p : list string) : Prop :=
  (exists c, reads h b p (VMap c)) \/ ((exists c, reads h a p (VMap c)) /\ throughMaps h b p).

Record merged (h : heap) (a b : nat) (h' : heap) : Prop := mkMerged {
  mg_next : hnext h <= hnext h';
  mg_frame : forall c, c < hnext h -> (forall p, ~ reach h a p c) -> hcell h' c = hcell h c;
  mg_nested : nested h' a;
  mg_reach : forall p c, reach h' a p c -> reach h a p c \/ hnext h <= c;
  mg_leaf : forall p v, leaf v -> (reads h' a p v <-> leafMerge h a b p v);
  mg_map : forall p, (exists c, reads h' a p (VMap c)) <-> mapMerge h a b p }.

Lemma leaf_dec v : {leaf v} + {exists b, v = VMap b}.
Proof. destruct v; try (left; discriminate). right. eauto. Qed.
Lemma lookup_In {A} k (v : A) l : lookup k l = Some v -> In (k, v) l.
Proof. induction l as [|[k' v'] r IH]; cbn; [discriminate|]. destruct (String.eqb_spec k k') as [->|]; [intros E; injection E as ->; auto|auto]. Qed.
Lemma In_lookup {A} k (v : A) l : NoDup (map fst l) -> In (k, v) l -> lookup k l = Some v.
Proof.
  induction l as [|[k' v'] r IH]; cbn; [tauto|]. intros ND [E|H].
  - injection E as -> ->. rewrite String.eqb_refl. reflexivity.
  - inversion ND as [|? ? N1 N2]; subst. destruct (String.eqb_spec k k') as [->|]; [|auto]. exfalso. apply N1. apply in_map_iff. exists (k', v). auto.
Qed.
Lemma reads_key h a k p w : reads h a (k :: p) w -> exists u, lookup k (hcell h a) = Some u /\ (p = [] /\ u = w \/ p <> [] /\ exists c, u = VMap c /\ reads h c p w).
Proof.
  intros R. destruct p as [|k2 r]; [apply reads_one in R; exists w; auto|]. apply reads_cons in R as (c & L & R). exists (VMap c). split; auto. right. split; [discriminate|eauto].
Qed.
Lemma nested_sub h a k b : nested h a -> lookup k (hcell h a) = Some (VMap b) -> nested h b.
Proof.
  intros [N1 N2 N3] L. constructor; [eapply noShare_sub; eauto|eapply closed_sub; eauto|]. intros p l R. apply (N3 (k :: p) l).
  eapply (reads_app h [k]); [apply reach_cons; exists b; split; [exact L|apply reach_nil]|exact R].
Qed.
Lemma nested_frame h h' a : nested h a -> hnext h <= hnext h' -> (forall p c, reach h a p c -> hcell h' c = hcell h c) -> nested h' a.
Proof.
  intros [N1 N2 N3] NX F. assert (RF : forall p b, reach h' a p b <-> reach h a p b) by (intros; apply reach_frame; eauto). constructor.
  - intros p q b H1 H2. apply (N1 p q b); apply RF; auto.
  - intros p b H. apply RF in H. apply N2 in H. lia.
  - intros p l R. apply (N3 p l). apply (reads_frame h h'); auto.
Qed.
Lemma goodKeys_sub h a k b : goodKeys h a -> lookup k (hcell h a) = Some (VMap b) -> goodKeys h b.
Proof. intros G L p c R. apply (G (k :: p)). apply reach_cons. eauto. Qed.

(** one entry of the map merged in *)
Record stepped (h : heap) (a b : nat) (k : string) (h' : heap) : Prop := mkStepped {
  st_next : hnext h <= hnext h';
  st_frame : forall c, c < hnext h -> (forall p, ~ reach h a p c) -> hcell h' c = hcell h c;
  st_nested : nested h' a;
  st_reach : forall p c, reach h' a p c -> reach h a p c \/ hnext h <= c;
  st_other : forall k' p w, k' <> k -> (reads h' a (k' :: p) w <-> reads h a (k' :: p) w);
  st_leaf : forall p v, leaf v -> (reads h' a (k :: p) v <-> leafMerge h a b (k :: p) v);
  st_map : forall p, (exists c, reads h' a (k :: p) (VMap c)) <-> mapMerge h a b (k :: p) }.

(** replacing what is below a key of [a] by the tree at [d] *)
Lemma replace_sub h a k d h' : nested h a -> hnext h <= hnext h' ->
  (forall k', k' <> k -> lookup k' (hcell h' a) = lookup k' (hcell h a)) -> lookup k (hcell h' a) = Some (VMap d) ->
  (forall x, x < hnext h -> x <> a -> (forall p, ~ reach h a (k :: p) x) -> hcell h' x = hcell h x) ->
  nested h' d -> (forall p x, reach h' d p x -> reach h a (k :: p) x \/ hnext h <= x) ->
  (forall x, x < hnext h -> (forall p, ~ reach h a p x) -> hcell h' x = hcell h x) /\ nested h' a /\
  (forall p x, reach h' a p x -> reach h a p x \/ hnext h <= x) /\
  (forall k' p w, k' <> k -> (reads h' a (k' :: p) w <-> reads h a (k' :: p) w)).
Proof.
  intros NA NX LO LK FR ND RD. pose proof NA as [N1 N2 N3]. pose proof ND as [D1 D2 D3].
  assert (AB : a < hnext h) by (apply (N2 [] a), reach_nil).
  assert (SUB : forall k' e, k' <> k -> lookup k' (hcell h a) = Some (VMap e) -> forall p x, reach h e p x -> hcell h' x = hcell h x).
  { intros k' e Hk L p x R. assert (RX : reach h a (k' :: p) x) by (apply reach_cons; eauto). apply FR.
    - apply (N2 _ _ RX).
    - intros ->. assert ([] = k' :: p); [|discriminate]. apply (N1 [] (k' :: p) a); [apply reach_nil|exact RX].
    - intros q Q. assert (k :: q = k' :: p) by (apply (N1 _ _ x); auto). congruence. }
  assert (OTH : forall k' p w, k' <> k -> (reads h' a (k' :: p) w <-> reads h a (k' :: p) w)).
  { intros k' p w Hk. destruct p as [|k2 r]; [rewrite !reads_one, LO by auto; reflexivity|]. rewrite !reads_cons, LO by auto.
    split; intros (e & L & R); exists e; split; auto; apply (reads_frame h h' (k2 :: r) e w); auto; intros; eapply SUB; eauto. }
  assert (RCH : forall p x, reach h' a p x -> (p = [] /\ x = a) \/ (exists q, p = k :: q /\ reach h' d q x) \/ (exists k' q, p = k' :: q /\ k' <> k /\ reach h a p x)).
  { intros p x R. destruct p as [|k' q]; [left; split; auto; eapply reach_fun; [exact R|apply reach_nil]|]. right.
    destruct (string_dec k' k) as [->|Hk]; [left|right].
    - apply reach_cons in R as (e & L & R). rewrite LK in L. injection L as <-. eauto.
    - exists k', q. split; auto. split; auto. destruct R as [[E _]|R]; [discriminate|]. right. apply OTH; auto. }
  assert (DA : forall q, ~ reach h' d q a).
  { intros q R. destruct (RD _ _ R) as [Q|Q]; [|lia]. assert ([] = k :: q); [|discriminate]. apply (N1 [] (k :: q) a); [apply reach_nil|exact Q]. }
  split; [|split; [|split]]; auto.
  - intros x X1 X2. apply FR; auto. intros ->. apply (X2 []). apply reach_nil.
  - constructor.
    + intros p q x P Q. apply RCH in P as [[-> ->]|[(p' & -> & P)|(k1 & p' & -> & K1 & P)]]; apply RCH in Q as [[-> Q]|[(q' & -> & Q)|(k2 & q' & -> & K2 & Q)]]; auto.
      * exfalso; eapply DA; eauto.
      * exfalso. assert ([] = k2 :: q'); [|discriminate]. apply (N1 _ _ a); [apply reach_nil|exact Q].
      * subst x. exfalso; eapply DA; eauto.
      * f_equal. eapply D1; eauto.
      * exfalso. destruct (RD _ _ P) as [P'|P']; [|apply N2 in Q; lia]. assert (k :: p' = k2 :: q') by (apply (N1 _ _ x); auto). congruence.
      * subst x. exfalso. assert ([] = k1 :: p'); [|discriminate]. apply (N1 _ _ a); [apply reach_nil|exact P].
      * exfalso. destruct (RD _ _ Q) as [P'|P']; [|apply N2 in P; lia]. assert (k :: q' = k1 :: p') by (apply (N1 _ _ x); auto). congruence.
      * apply (N1 _ _ x); auto.
    + intros p x P. apply RCH in P as [[-> ->]|[(p' & -> & P)|(k1 & p' & -> & K1 & P)]]; [lia|apply D2 in P; exact P|apply N2 in P; lia].
    + intros p l R. destruct p as [|k' q]; [destruct (reads_nil _ _ _ R)|]. destruct (string_dec k' k) as [->|Hk].
      * apply reads_key in R as (u & L & [[-> ->]|[_ (e & -> & R)]]); rewrite LK in L; [discriminate|]. injection L as <-. apply (D3 _ _ R).
      * apply OTH in R; auto. apply (N3 _ _ R).
  - intros p x P. apply RCH in P as [[-> ->]|[(p' & -> & P)|(k1 & p' & -> & K1 & P)]]; [left; apply reach_nil|apply RD in P; exact P|auto].
Qed.
Lemma step_sub h a b k c d h' : nested h a -> hnext h <= hnext h' ->
  (forall k', k' <> k -> lookup k' (hcell h' a) = lookup k' (hcell h a)) -> lookup k (hcell h' a) = Some (VMap d) ->
  (forall x, x < hnext h -> x <> a -> (forall p, ~ reach h a (k :: p) x) -> hcell h' x = hcell h x) ->
  nested h' d -> (forall p x, reach h' d p x -> reach h a (k :: p) x \/ hnext h <= x) ->
  lookup k (hcell h b) = Some (VMap c) ->
  (forall p v, leaf v -> p <> [] -> (reads h' d p v <-> leafMerge h a b (k :: p) v)) ->
  (forall p, p <> [] -> ((exists x, reads h' d p (VMap x)) <-> mapMerge h a b (k :: p))) ->
  stepped h a b k h'.
Proof.
  intros NA NX LO LK FR ND RD LB HL HM. destruct (replace_sub h a k d h' NA NX LO LK FR ND RD) as (R1 & R2 & R3 & R4). constructor; auto.
  - intros p v Lv. destruct p as [|k2 r].
    + rewrite reads_one, LK. split; [intros E; injection E as <-; destruct (Lv d eq_refl)|].
      intros [R|(_ & _ & R)]; [apply reads_one in R; rewrite LB in R; injection R as <-; destruct (Lv c eq_refl)|].
      exfalso. apply (R (VMap c)). constructor. exact LB.
    + rewrite <- HL by (auto; discriminate). rewrite reads_cons, LK. split; [intros (e & E & R); injection E as <-; exact R|eauto].
  - intros p. destruct p as [|k2 r].
    + split; [intros _; left; exists c; constructor; exact LB|]. intros _. exists d. constructor. exact LK.
    + rewrite <- HM by discriminate. split; intros (x & R); exists x; [|apply reads_cons; eauto].
      apply reads_cons in R as (e & E & R). rewrite LK in E. injection E as <-. exact R.
Qed.

Lemma disjoint_sub h a b k k' d c : disjoint h a b -> lookup k (hcell h a) = Some (VMap d) -> lookup k' (hcell h b) = Some (VMap c) -> disjoint h d c.
Proof. intros D L1 L2 p q x R1 R2. apply (D (k :: p) (k' :: q) x); apply reach_cons; eauto. Qed.

Lemma prefix_nil p : prefix p [] -> p = []. Proof. intros [r E]. destruct p; [auto|discriminate]. Qed.
Lemma prefix_cons k p q : prefix p (k :: q) -> p = [] \/ exists r, p = k :: r /\ prefix r q.
Proof. intros [t E]. destruct p as [|k' r]; [auto|]. right. injection E as -> E. exists r. split; auto. exists t. auto. Qed.

(** the specification, one key down *)
Lemma throughMaps_cons h b k c p : lookup k (hcell h b) = Some (VMap c) -> (throughMaps h b (k :: p) <-> throughMaps h c p).
Proof.
  intros L. split; intros T q w P R.
  - destruct q as [|k1 q]; [destruct (reads_nil _ _ _ R)|]. apply (T (k :: k1 :: q) w).
    + destruct P as [t ->]. exists t. reflexivity.
    + eapply rd_more; eauto.
  - apply prefix_cons in P as [->|(r & -> & P)]; [destruct (reads_nil _ _ _ R)|].
    apply reads_key in R as (u & Lu & [[-> ->]|[_ (e & -> & R)]]); rewrite L in Lu.
    + injection Lu as <-. intros Lf. apply (Lf c eq_refl).
    + injection Lu as <-. apply (T r w); auto.
Qed.
Lemma reads_below h b k c p w : lookup k (hcell h b) = Some (VMap c) -> p <> [] -> (reads h b (k :: p) w <-> reads h c p w).
Proof.
  intros L Hp. destruct p as [|k2 r]; [congruence|]. rewrite reads_cons, L. split; [intros (e & E & R); injection E as <-; exact R|eauto].
Qed.
Lemma leafMerge_cons h a b k d c p v : lookup k (hcell h a) = Some (VMap d) -> lookup k (hcell h b) = Some (VMap c) -> p <> [] ->
  (leafMerge h a b (k :: p) v <-> leafMerge h d c p v).
Proof.
  intros L1 L2 Hp. unfold leafMerge. rewrite (reads_below h b k c p v L2 Hp), (reads_below h a k d p v L1 Hp), (throughMaps_cons h b k c p L2).
  assert (Q : (forall w, ~ reads h b (k :: p) w) <-> (forall w, ~ reads h c p w)).
  { split; intros H w R; apply (H w); apply (reads_below h b k c p w L2 Hp); auto. }
  rewrite Q. reflexivity.
Qed.
Lemma mapMerge_cons h a b k d c p : lookup k (hcell h a) = Some (VMap d) -> lookup k (hcell h b) = Some (VMap c) -> p <> [] ->
  (mapMerge h a b (k :: p) <-> mapMerge h d c p).
Proof.
  intros L1 L2 Hp. unfold mapMerge. rewrite (throughMaps_cons h b k c p L2).
  assert (Q : forall x y e, lookup k (hcell h x) = Some (VMap y) -> ((exists c, reads h x (k :: p) (VMap c)) <-> (exists c, reads h y p (VMap c))) \/ e = 0).
  { intros x y e L. left. split; intros (z & R); exists z; apply (reads_below h x k y p _ L Hp); auto. }
  destruct (Q b c 1 L2) as [Q1|]; [|discriminate]. destruct (Q a d 1 L1) as [Q2|]; [|discriminate]. rewrite Q1, Q2. reflexivity.
Qed.

(** replacing the value of a key of [a] by a leaf *)
Lemma replace_leaf h a k v : nested h a -> leaf v -> (forall l, v <> VStrMap l) ->
  (forall x, x < hnext h -> (forall p, ~ reach h a p x) -> hcell (Put h a k v) x = hcell h x) /\ nested (Put h a k v) a /\
  (forall p x, reach (Put h a k v) a p x -> reach h a p x) /\
  (forall k' p w, k' <> k -> (reads (Put h a k v) a (k' :: p) w <-> reads h a (k' :: p) w)) /\
  (forall p w, reads (Put h a k v) a (k :: p) w <-> p = [] /\ w = v).
Proof.
  intros NA Lv SM. pose proof NA as [N1 N2 N3]. set (h' := Put h a k v).
  assert (LK : lookup k (hcell h' a) = Some v) by (unfold h', Put; rewrite store_same; apply lookup_set_same).
  assert (LO : forall k', k' <> k -> lookup k' (hcell h' a) = lookup k' (hcell h a)) by (intros; unfold h', Put; rewrite store_same; apply lookup_set_other; auto).
  assert (FR : forall x, x <> a -> hcell h' x = hcell h x) by (intros; unfold h', Put; apply store_other; auto).
  assert (OTH : forall k' p w, k' <> k -> (reads h' a (k' :: p) w <-> reads h a (k' :: p) w)).
  { intros k' p w Hk. destruct p as [|k2 r]; [rewrite !reads_one, LO by auto; reflexivity|]. rewrite !reads_cons, LO by auto.
    split; intros (e & L & R); exists e; split; auto; apply (reads_frame h h' (k2 :: r) e w); auto; intros q x Q; apply FR; intros ->;
      (assert ([] = k' :: q); [|discriminate]); apply (N1 [] (k' :: q) a); try apply reach_nil; apply reach_cons; eauto. }
  assert (HK : forall p w, reads h' a (k :: p) w <-> p = [] /\ w = v).
  { intros p w. split.
    - intros R. apply reads_key in R as (u & L & [[-> ->]|[_ (e & -> & R)]]); rewrite LK in L; injection L as L; [auto|]. destruct (Lv e L).
    - intros [-> ->]. constructor. exact LK. }
  assert (RCH : forall p x, reach h' a p x -> reach h a p x).
  { intros p x [[-> ->]|R]; [apply reach_nil|]. destruct p as [|k' q]; [destruct (reads_nil _ _ _ R)|]. destruct (string_dec k' k) as [->|Hk].
    - apply HK in R as [-> <-]. destruct (Lv x eq_refl).
    - right. apply OTH; auto. }
  split; [|split; [|split; [|split]]]; auto.
  - intros x X1 X2. apply FR. intros ->. apply (X2 []), reach_nil.
  - constructor.
    + intros p q x P Q. apply (N1 p q x); auto.
    + intros p x P. apply RCH, N2 in P. exact P.
    + intros p l R. destruct p as [|k' q]; [destruct (reads_nil _ _ _ R)|]. destruct (string_dec k' k) as [->|Hk].
      * apply HK in R as [-> R]. destruct (SM l). auto.
      * apply OTH in R; auto. apply (N3 _ _ R).
Qed.
Lemma step_leaf h a b k v : nested h a -> leaf v -> (forall l, v <> VStrMap l) -> lookup k (hcell h b) = Some v -> stepped h a b k (Put h a k v).
Proof.
  intros NA Lv SM LB. destruct (replace_leaf h a k v NA Lv SM) as (R1 & R2 & R3 & R4 & HK). constructor; auto.
  - intros p w Lw. rewrite HK. split.
    + intros [-> ->]. left. constructor. exact LB.
    + intros [R|(R & T & A)].
      * apply reads_key in R as (u & L & [[-> ->]|[_ (e & -> & R)]]); rewrite LB in L; injection L as L; auto. destruct (Lv e L).
      * destruct (T [k] v); [exists p; reflexivity|constructor; exact LB|exact Lv].
  - intros p. split.
    + intros (c & R). apply HK in R as [_ R]. destruct (Lv c). auto.
    + intros [(c & R)|(_ & T)].
      * apply reads_key in R as (u & L & [[-> ->]|[_ (e & -> & R)]]); rewrite LB in L; injection L as L; [destruct (Lv c L)|destruct (Lv e L)].
      * destruct (T [k] v); [exists p; reflexivity|constructor; exact LB|exact Lv].
Qed.

Lemma step_old h a b k d c h' : nested h a -> lookup k (hcell h a) = Some (VMap d) -> lookup k (hcell h b) = Some (VMap c) ->
  merged h d c h' -> stepped h a b k h'.
Proof.
  intros NA LA LB [M1 M2 M3 M4 M5 M6]. pose proof NA as [N1 N2 N3].
  assert (AD : forall p, ~ reach h d p a).
  { intros p R. assert ([] = k :: p); [|discriminate]. apply (N1 _ _ a); [apply reach_nil|apply reach_cons; eauto]. }
  assert (CA : hcell h' a = hcell h a) by (apply M2; [apply (N2 []), reach_nil|exact AD]).
  apply (step_sub h a b k c d h'); auto.
  - intros k' _. rewrite CA. reflexivity.
  - rewrite CA. exact LA.
  - intros x X1 X2 X3. apply M2; auto. intros p R. apply (X3 p). apply reach_cons. eauto.
  - intros p x R. destruct (M4 p x R) as [Q|Q]; [left; apply reach_cons; eauto|auto].
  - intros p v Lv Hp. rewrite (leafMerge_cons h a b k d c p v) by auto. apply M5, Lv.
  - intros p Hp. rewrite (mapMerge_cons h a b k d c p) by auto. apply M6.
Qed.

Lemma alloc_old h x : x < hnext h -> hcell (snd (alloc h)) x = hcell h x.
Proof. intros H. cbn. destruct (Nat.eqb_spec (hnext h) x); [lia|reflexivity]. Qed.
Lemma alloc_new h : hcell (snd (alloc h)) (hnext h) = [].
Proof. cbn. rewrite Nat.eqb_refl. reflexivity. Qed.
Lemma empty_reads h e p v : hcell h e = [] -> ~ reads h e p v.
Proof. intros E R. destruct p as [|k q]; [destruct (reads_nil _ _ _ R)|]. apply reads_key in R as (u & L & _). rewrite E in L. discriminate. Qed.
Lemma empty_nested h e : hcell h e = [] -> e < hnext h -> nested h e.
Proof.
  intros E H. assert (R : forall p x, reach h e p x -> p = [] /\ x = e).
  { intros p x [R|R]; [exact R|]. destruct (empty_reads h e p _ E R). }
  constructor; [intros p q x P Q; apply R in P as [-> _]; apply R in Q as [-> _]; auto|intros p x P; apply R in P as [_ ->]; auto|].
  intros p l Q. destruct (empty_reads h e p _ E Q).
Qed.
Lemma alloc_nested h a : nested h a -> nested (snd (alloc h)) a.
Proof. intros N. apply (nested_frame h); [exact N|cbn; lia|]. intros p c R. apply alloc_old. apply (ne_closed _ _ N _ _ R). Qed.
Lemma alloc_reads h a p v : nested h a -> (reads (snd (alloc h)) a p v <-> reads h a p v).
Proof. intros N. apply reads_frame. intros q b R. apply alloc_old. apply (ne_closed _ _ N _ _ R). Qed.
Lemma alloc_reach h a p v : nested h a -> (reach (snd (alloc h)) a p v <-> reach h a p v).
Proof. intros N. apply reach_frame. intros q b R. apply alloc_old. apply (ne_closed _ _ N _ _ R). Qed.

Lemma step_new h a b k c h3 : nested h a -> nested h b -> lookup k (hcell h b) = Some (VMap c) -> (forall d, lookup k (hcell h a) <> Some (VMap d)) ->
  merged (snd (alloc h)) (hnext h) c h3 -> stepped h a b k (Put h3 a k (VMap (hnext h))).
Proof.
  intros NA NB LB NK [M1 M2 M3 M4 M5 M6]. set (e := hnext h) in *. set (h1 := snd (alloc h)) in *. set (h' := Put h3 a k (VMap e)).
  assert (NC : nested h c) by (eapply nested_sub; eauto).
  pose proof NA as [N1 N2 N3]. assert (AB : a < hnext h) by (apply (N2 []), reach_nil).
  assert (EE : hcell h1 e = []) by apply alloc_new.
  assert (RE : forall p x, reach h1 e p x -> p = [] /\ x = e) by (intros p x [R|R]; [exact R|destruct (empty_reads h1 e p _ EE R)]).
  assert (FR : forall x, x < hnext h -> x <> a -> hcell h' x = hcell h x).
  { intros x X1 X2. unfold h', Put. rewrite store_other by auto. rewrite M2; [apply alloc_old; auto|cbn; lia|]. intros p R. apply RE in R as [_ ->]. unfold e in X1. lia. }
  assert (CA : hcell h3 a = hcell h a).
  { rewrite M2; [apply alloc_old; auto|cbn; lia|]. intros p R. apply RE in R as [_ ->]. unfold e in AB. lia. }
  assert (EA : forall p, ~ reach h3 e p a).
  { intros p R. apply M4 in R as [R|R]; [apply RE in R as [_ ->]; unfold e in AB; lia|cbn in R; lia]. }
  assert (FE : forall q x, reach h3 e q x -> hcell h' x = hcell h3 x).
  { intros q x R. unfold h', Put. apply store_other. intros ->. apply (EA q R). }
  assert (RD' : forall p v, reads h' e p v <-> reads h3 e p v) by (intros; apply reads_frame; auto).
  apply (step_sub h a b k c e h'); auto.
  - cbn in M1 |- *. lia.
  - intros k' Hk. unfold h', Put. rewrite store_same, lookup_set_other, CA by auto. reflexivity.
  - unfold h', Put. rewrite store_same. apply lookup_set_same.
  - apply (nested_frame h3); auto.
  - intros p x R. right. assert (R3 : reach h3 e p x) by (apply (reach_frame h3 h' e p x); auto). apply M4 in R3 as [R3|R3]; [apply RE in R3 as [_ ->]; unfold e; lia|cbn in R3; lia].
  - intros p v Lv Hp. rewrite RD', M5 by auto. unfold leafMerge. rewrite (reads_below h b k c p v LB Hp). unfold h1. rewrite (alloc_reads h c p v NC). fold h1.
    split; intros [R|(R & _ & A)]; auto; [destruct (empty_reads h1 e p _ EE R)|].
    apply reads_key in R as (u & L & [[-> ->]|[_ (x & -> & _)]]); [congruence|destruct (NK _ L)].
  - intros p Hp. assert (EQ : (exists x, reads h' e p (VMap x)) <-> exists x, reads h3 e p (VMap x)) by (split; intros (x & R); exists x; apply RD'; auto).
    rewrite EQ, M6. unfold mapMerge. split; intros [(x & R)|((x & R) & A)].
    + left. exists x. rewrite (reads_below h b k c p _ LB Hp). apply (alloc_reads h c); auto.
    + destruct (empty_reads h1 e p _ EE R).
    + left. exists x. apply (reads_below h b k c p _ LB Hp) in R. apply (alloc_reads h c); auto.
    + apply reads_key in R as (u & L & [[-> ->]|[_ (y & -> & _)]]); [congruence|destruct (NK _ L)].
Qed.

(** the state of the loop: the entries with keys in [P] are merged, the others untouched *)
Record looped (h0 : heap) (a b : nat) (P : list string) (h : heap) : Prop := mkLooped {
  lp_next : hnext h0 <= hnext h;
  lp_frame : forall c, c < hnext h0 -> (forall p, ~ reach h0 a p c) -> hcell h c = hcell h0 c;
  lp_nested : nested h a;
  lp_reach : forall p c, reach h a p c -> reach h0 a p c \/ hnext h0 <= c;
  lp_other : forall k p w, ~ In k P -> (reads h a (k :: p) w <-> reads h0 a (k :: p) w);
  lp_leaf : forall k p v, In k P -> leaf v -> (reads h a (k :: p) v <-> leafMerge h0 a b (k :: p) v);
  lp_map : forall k p, In k P -> ((exists c, reads h a (k :: p) (VMap c)) <-> mapMerge h0 a b (k :: p)) }.

Lemma looped_start h a b : nested h a -> looped h a b [] h.
Proof. intros N. constructor; auto; try tauto. intros k p v []. intros k p []. Qed.

Lemma looped_b h0 a b P h : nested h0 b -> disjoint h0 a b -> looped h0 a b P h -> forall q c, reach h0 b q c -> hcell h c = hcell h0 c.
Proof. intros NB D L q c R. apply (lp_frame _ _ _ _ _ L); [apply (ne_closed _ _ NB _ _ R)|]. intros p Q. apply (D p q c Q R). Qed.

Lemma throughMaps_ext h h' b p : (forall q w, reads h' b q w <-> reads h b q w) -> (throughMaps h' b p <-> throughMaps h b p).
Proof. intros E. split; intros T q w P R; apply (T q w P); apply E; auto. Qed.
Lemma leafMerge_ext h h' a b p v : (forall w, reads h' a p w <-> reads h a p w) -> (forall q w, reads h' b q w <-> reads h b q w) ->
  (leafMerge h' a b p v <-> leafMerge h a b p v).
Proof.
  intros EA EB. unfold leafMerge. rewrite EA, EB, (throughMaps_ext h h' b p EB).
  assert (Q : (forall w, ~ reads h' b p w) <-> (forall w, ~ reads h b p w)) by (split; intros H w R; apply (H w), EB; auto). rewrite Q. reflexivity.
Qed.
Lemma mapMerge_ext h h' a b p : (forall w, reads h' a p w <-> reads h a p w) -> (forall q w, reads h' b q w <-> reads h b q w) ->
  (mapMerge h' a b p <-> mapMerge h a b p).
Proof.
  intros EA EB. unfold mapMerge. rewrite (throughMaps_ext h h' b p EB).
  assert (Q1 : (exists c, reads h' b p (VMap c)) <-> (exists c, reads h b p (VMap c))) by (split; intros (c & R); exists c; apply EB; auto).
  assert (Q2 : (exists c, reads h' a p (VMap c)) <-> (exists c, reads h a p (VMap c))) by (split; intros (c & R); exists c; apply EA; auto).
  rewrite Q1, Q2. reflexivity.
Qed.

Lemma looped_step h0 a b P h k h' : nested h0 b -> disjoint h0 a b -> looped h0 a b P h -> ~ In k P -> stepped h a b k h' -> looped h0 a b (k :: P) h'.
Proof.
  intros NB D LP HK [S1 S2 S3 S4 S5 S6 S7]. pose proof (looped_b _ _ _ _ _ NB D LP) as FB. destruct LP as [L1 L2 L3 L4 L5 L6 L7].
  assert (EB : forall q w, reads h b q w <-> reads h0 b q w) by (intros; apply reads_frame; auto). constructor; auto.
  - lia.
  - intros c C1 C2. rewrite S2; [auto|lia|]. intros p R. apply L4 in R as [R|R]; [apply (C2 p R)|lia].
  - intros p c R. apply S4 in R as [R|R]; [apply L4 in R; auto|right; lia].
  - intros k' p w N. cbn in N. rewrite S5 by (intros ->; tauto). apply L5. tauto.
  - intros k' p v [<-|I] Lv.
    + rewrite S6 by auto. apply leafMerge_ext; auto.
    + rewrite S5 by (intros ->; tauto). apply L6; auto.
  - intros k' p [<-|I].
    + rewrite S7. apply mapMerge_ext; auto.
    + rewrite <- L7 by auto. split; intros (c & R); exists c; apply (S5 k' p (VMap c)); auto; intros ->; tauto.
Qed.

Lemma looped_end h0 a b P h : (forall k v, lookup k (hcell h0 b) = Some v -> In k P) -> looped h0 a b P h -> merged h0 a b h.
Proof.
  intros HP [L1 L2 L3 L4 L5 L6 L7].
  assert (NB : forall k p w, ~ In k P -> ~ reads h0 b (k :: p) w).
  { intros k p w N R. apply reads_key in R as (u & L & _). apply HP in L. tauto. }
  assert (TM : forall k p, ~ In k P -> throughMaps h0 b (k :: p)).
  { intros k p N q w Q R. apply prefix_cons in Q as [->|(r & -> & _)]; [destruct (reads_nil _ _ _ R)|destruct (NB k r w N R)]. }
  constructor; auto.
  - intros p v Lv. destruct p as [|k p]; [split; [intros R; destruct (reads_nil _ _ _ R)|intros [R|[R _]]; destruct (reads_nil _ _ _ R)]|].
    destruct (in_dec string_dec k P) as [I|N]; [auto|]. rewrite L5 by auto. split.
    + intros R. right. split; [exact R|]. split; [apply TM; auto|]. intros w. apply NB; auto.
    + intros [R|[R _]]; [destruct (NB _ _ _ N R)|exact R].
  - intros p. destruct p as [|k p]; [split; [intros [c R]; destruct (reads_nil _ _ _ R)|intros [[c R]|[[c R] _]]; destruct (reads_nil _ _ _ R)]|].
    destruct (in_dec string_dec k P) as [I|N]; [auto|]. split.
    + intros [c R]. right. split; [exists c; apply L5; auto|apply TM; auto].
    + intros [[c R]|[[c R] _]]; [destruct (NB _ _ _ N R)|]. exists c. apply L5; auto.
Qed.

Lemma Get_plain h a k : dotFree k = true -> Get h a k = lookup k (hcell h a).
Proof. intros D. unfold Get. destruct (lookup k (hcell h a)); [reflexivity|]. apply splitDots_free in D. rewrite D. reflexivity. Qed.

Theorem merge_ok n : forall h a b, nested h a -> nested h b -> disjoint h a b -> goodKeys h b -> deep h b n ->
  exists h', Merge (S n) h a b = Ok h' /\ merged h a b h'.
Proof.
  induction n as [n IH] using lt_wf_ind. intros h0 a b NA0 NB0 D GK DP.
  destruct (GK [] b (reach_nil h0 b)) as [ND DF]. change (Merge (S n) h0 a b) with
    ((fix loop (l : list (string * val)) (h : heap) : res heap :=
         match l with
         | [] => Ok h
         | (key, value) :: r =>
             bind (match GetDynMap h b key with
                   | Some (m, h1) =>
                       match GetDynMap h1 a key with
                       | Some (m2, h2) => Merge n h2 m2 m
                       | None => let '(c, h2) := alloc h1 in bind (Merge n h2 c m) (fun h3 => Ok (Put h3 a key (VMap c)))
                       end
                   | None => Ok (Put h a key value)
                   end) (fun h' => loop r h')
         end) (hcell h0 b) h0).
  assert (ALL : forall k v, In (k, v) (hcell h0 b) -> lookup k (hcell h0 b) = Some v) by (intros; apply In_lookup; auto).
  assert (FIN : forall k v, lookup k (hcell h0 b) = Some v -> In k ([] ++ map fst (hcell h0 b))).
  { intros k v L. apply lookup_In in L. apply in_map_iff. exists (k, v). auto. }
  assert (NP : forall k, In k (map fst (hcell h0 b)) -> ~ In k ([] : list string)) by auto.
  pose proof (looped_start h0 a b NA0) as LP.
  remember (hcell h0 b) as cb eqn:EC. 
  assert (CB : cb = hcell h0 b) by auto. clear EC.
  assert (H : forall l P h, (forall k v, In (k, v) l -> lookup k cb = Some v) -> (forall k v, lookup k cb = Some v -> In k (P ++ map fst l)) ->
    (forall k, In k (map fst l) -> ~ In k P) -> NoDup (map fst l) -> (forall k, In k (map fst l) -> dotFree k = true) -> looped h0 a b P h ->
    exists h', (fix loop (l : list (string * val)) (h : heap) : res heap :=
         match l with
         | [] => Ok h
         | (key, value) :: r =>
             bind (match GetDynMap h b key with
                   | Some (m, h1) =>
                       match GetDynMap h1 a key with
                       | Some (m2, h2) => Merge n h2 m2 m
                       | None => let '(c, h2) := alloc h1 in bind (Merge n h2 c m) (fun h3 => Ok (Put h3 a key (VMap c)))
                       end
                   | None => Ok (Put h a key value)
                   end) (fun h' => loop r h')
         end) l h = Ok h' /\ merged h0 a b h').
  2:{ apply (H cb [] h0); auto. }
  clear ND DF ALL FIN NP LP.
  induction l as [|[k v] r IHl]; intros P h ALL FIN NP ND DF LP.
  - exists h. split; [reflexivity|]. apply (looped_end h0 a b P); auto. intros k v L. rewrite CB in FIN. specialize (FIN k v L). rewrite app_nil_r in FIN. exact FIN.
  - pose proof (looped_b _ _ _ _ _ NB0 D LP) as FB. pose proof (lp_nested _ _ _ _ _ LP) as NA.
    assert (EB : hcell h b = cb) by (rewrite CB; apply (FB []), reach_nil).
    assert (LB : lookup k (hcell h b) = Some v) by (rewrite EB; apply ALL; left; auto).
    assert (DK : dotFree k = true) by (apply DF; left; auto).
    assert (NKP : ~ In k P) by (apply NP; left; auto).
    assert (NB : nested h b) by (apply (nested_frame h0); auto; apply (lp_next _ _ _ _ _ LP)).
    assert (DH : disjoint h a b).
    { intros p q c R1 R2. apply (reach_frame h0 h b q c FB) in R2. apply (lp_reach _ _ _ _ _ LP) in R1 as [R1|R1]; [apply (D p q c R1 R2)|].
      apply (ne_closed _ _ NB0) in R2. lia. }
    assert (GH : goodKeys h b). { intros p c R. apply (reach_frame h0 h b p c FB) in R. rewrite (FB p c R). apply (GK p c R). }
    assert (DPH : deep h b n). { intros p w R. apply (DP p w). apply (reads_frame h0 h p b w FB). auto. }
    assert (STEP : exists h', (match GetDynMap h b k with
                   | Some (m, h1) =>
                       match GetDynMap h1 a k with
                       | Some (m2, h2) => Merge n h2 m2 m
                       | None => let '(c, h2) := alloc h1 in bind (Merge n h2 c m) (fun h3 => Ok (Put h3 a k (VMap c)))
                       end
                   | None => Ok (Put h a k v)
                   end) = Ok h' /\ stepped h a b k h').
    { unfold GetDynMap at 1. rewrite (Get_plain h b k DK), LB.
      assert (SV : forall l, v <> VStrMap l). { intros l ->. apply (ne_strings _ _ NB [k] l). constructor. exact LB. }
      destruct (leaf_dec v) as [Lv|[c ->]].
      - exists (Put h a k v). split; [|apply step_leaf; auto]. destruct v; try reflexivity; [destruct (Lv a0 eq_refl)|destruct (SV l eq_refl)].
      - cbn [toDyn]. unfold GetDynMap. rewrite (Get_plain h a k DK).
        assert (exists m, n = S m) as [m ->]. { destruct n as [|m]; [|eauto]. pose proof (DPH [k] (VMap c)) as Q. cbn in Q. enough (1 <= 0) by lia. apply Q. constructor. exact LB. }
        assert (NC : nested h c) by (eapply nested_sub; eauto).
        assert (GC : goodKeys h c) by (eapply goodKeys_sub; eauto).
        assert (DC : deep h c m). { intros p w R. destruct p as [|k2 p]; [cbn; lia|]. assert (length (k :: k2 :: p) <= S m) by (apply (DPH _ w); eapply rd_more; eauto). cbn in *. lia. }
        destruct (lookup k (hcell h a)) as [va|] eqn:LA.
        + destruct (leaf_dec va) as [La|[d ->]].
          * assert (toDyn h va = None) as ->.
            { destruct va; try reflexivity; [destruct (La a0 eq_refl)|]. destruct (ne_strings _ _ NA [k] l). constructor. exact LA. }
            cbn [alloc]. destruct (IH m ltac:(lia) (snd (alloc h)) (hnext h) c) as (h3 & E3 & M3).
            -- apply empty_nested; [apply alloc_new|cbn; lia].
            -- apply alloc_nested; auto.
            -- intros p q x [[-> ->]|R1] R2; [|destruct (empty_reads _ _ _ _ (alloc_new h) R1)]. apply (alloc_reach h c) in R2; auto. apply (ne_closed _ _ NC) in R2. lia.
            -- intros p x R. apply (alloc_reach h c) in R; auto. rewrite alloc_old by (apply (ne_closed _ _ NC _ _ R)). apply (GC p x R).
            -- intros p w R. apply (alloc_reads h c) in R; auto. apply (DC p w R).
            -- exists (Put h3 a k (VMap (hnext h))). cbn [alloc snd] in E3. rewrite E3. split; [reflexivity|]. apply (step_new h a b k c h3); auto. intros d Ld. rewrite LA in Ld. injection Ld as ->. apply (La d eq_refl).
          * cbn [toDyn]. destruct (IH m ltac:(lia) h d c) as (h3 & E3 & M3); [exact (nested_sub h a k d NA LA)|exact NC|eapply disjoint_sub; eauto|exact GC|exact DC|].
            exists h3. split; [exact E3|]. apply (step_old h a b k d c h3); auto.
        + cbn [alloc]. destruct (IH m ltac:(lia) (snd (alloc h)) (hnext h) c) as (h3 & E3 & M3).
            -- apply empty_nested; [apply alloc_new|cbn; lia].
            -- apply alloc_nested; auto.
            -- intros p q x [[-> ->]|R1] R2; [|destruct (empty_reads _ _ _ _ (alloc_new h) R1)]. apply (alloc_reach h c) in R2; auto. apply (ne_closed _ _ NC) in R2. lia.
            -- intros p x R. apply (alloc_reach h c) in R; auto. rewrite alloc_old by (apply (ne_closed _ _ NC _ _ R)). apply (GC p x R).
            -- intros p w R. apply (alloc_reads h c) in R; auto. apply (DC p w R).
            -- exists (Put h3 a k (VMap (hnext h))). cbn [alloc snd] in E3. rewrite E3. split; [reflexivity|]. apply (step_new h a b k c h3); auto. intros d Ld. congruence. }
    destruct STEP as (h' & E & ST). rewrite E. cbn [bind].
    apply (IHl (k :: P) h').
    + intros k' v' I. apply ALL. right. auto.
    + intros k' v' L. specialize (FIN k' v' L). rewrite in_app_iff in FIN |- *. cbn in FIN |- *. tauto.
    + intros k' I [<-|I2]; [inversion ND; subst; contradiction|]. apply (NP k'); [right; auto|exact I2].
    + inversion ND; auto.
    + intros k' I. apply DF. right. auto.
    + apply (looped_step h0 a b P h k h'); auto.
Qed.
