(** Flattening nested maps and building them again. *)
From Coq Require Import String List ZArith Bool Ascii Arith Lia Permutation.
From Verif Require Import Num DynModel DynProofs Prop_C27 MergeProofs.
Import ListNotations.
Local Open Scope list_scope.

(** the dotted key of a path *)
Definition dots (p : list string) : string := String.concat "." p.
Definition allFree (p : list string) : Prop := Forall (fun k => dotFree k = true) p.

Lemma splitDots_app k : dotFree k = true -> forall s, splitDots (k ++ "." ++ s)%string = k :: splitDots s.
Proof.
  intros D s. induction k as [|c r IH]; [reflexivity|]. cbn [dotFree] in D. apply andb_prop in D as [D1 D2]. cbn [append splitDots].
  apply negb_true_iff in D1. rewrite D1. cbn [append] in IH. rewrite (IH D2). reflexivity.
Qed.
Lemma dots_cons k k2 p : dots (k :: k2 :: p) = (k ++ "." ++ dots (k2 :: p))%string.
Proof. reflexivity. Qed.
Lemma split_dots p : p <> [] -> allFree p -> splitDots (dots p) = p.
Proof.
  induction p as [|k [|k2 r] IH]; intros Hne F; [congruence| |].
  - inversion F; subst. apply splitDots_free. auto.
  - inversion F; subst. rewrite dots_cons, splitDots_app by auto. rewrite IH; [reflexivity|discriminate|auto].
Qed.
Lemma dots_inj p q : p <> [] -> q <> [] -> allFree p -> allFree q -> dots p = dots q -> p = q.
Proof. intros P Q F G E. rewrite <- (split_dots p), <- (split_dots q), E; auto. Qed.

(** *** putting keeps maps nested *)
Lemma putDots_nested ks v : ks <> [] -> leaf v -> (forall l, v <> VStrMap l) -> forall h a h', nested h a -> putDots h a ks v = Ok h' ->
  nested h' a /\ (forall p c, reach h' a p c -> reach h a p c \/ hnext h <= c).
Proof.
  intros Hne Lv SM. induction ks as [|k r IH]; intros h a h' N E; [congruence|]. destruct r as [|k2 r].
  - cbn in E. injection E as <-. destruct (replace_leaf h a k v N Lv SM) as (_ & R2 & R3 & _). auto.
  - assert (NE2 : k2 :: r <> []) by discriminate. cbn [putDots] in E. fold (putDots) in E.
    destruct (lookup k (hcell h a)) as [u|] eqn:L.
    + assert (exists b, u = VMap b) as [b ->].
      { destruct (leaf_dec u) as [Lu|X]; [exfalso|exact X]. destruct u; try discriminate; [destruct (Lu a0 eq_refl)|]. apply (ne_strings _ _ N [k] l). constructor. exact L. }
      change (putDots h b (k2 :: r) v = Ok h') in E.
      assert (NB : nested h b) by (eapply nested_sub; eauto). destruct (IH NE2 h b h' NB E) as [NB' RB].
      pose proof (putDots_ok (k2 :: r) v NE2 h b h' (ne_tree _ _ NB) (ne_closed _ _ NB) (nested_noStr _ _ _ NB) E) as [_ NX FR _ _].
      assert (CA : hcell h' a = hcell h a).
      { apply FR; [apply (ne_closed _ _ N []), reach_nil|]. intros p q _ _ R. assert ([] = k :: p); [|discriminate]. apply (ne_tree _ _ N _ _ a); [apply reach_nil|apply reach_cons; eauto]. }
      destruct (replace_sub h a k b h') as (_ & R2 & R3 & _); auto.
      * intros. rewrite CA. reflexivity.
      * rewrite CA. exact L.
      * intros x X1 X2 X3. apply FR; auto. intros p q _ _ R. apply (X3 p). apply reach_cons. eauto.
      * intros p x R. destruct (RB p x R) as [Q|Q]; [left; apply reach_cons; eauto|auto].
    + set (h1 := snd (alloc h)) in *. set (b := hnext h) in *. set (h2 := Put h1 a k (VMap b)) in *. change (putDots h2 b (k2 :: r) v = Ok h') in E.
      assert (AB : a < hnext h) by (apply (ne_closed _ _ N []), reach_nil). assert (NAB : a <> b) by (unfold b; lia).
      assert (EB : hcell h2 b = []) by (unfold h2, Put; rewrite store_other by auto; apply alloc_new).
      assert (HN : hnext h2 = S (hnext h)) by reflexivity.
      assert (NB : nested h2 b) by (apply empty_nested; [exact EB|unfold b; lia]).
      destruct (IH NE2 h2 b h' NB E) as [NB' RB].
      pose proof (putDots_ok (k2 :: r) v NE2 h2 b h' (ne_tree _ _ NB) (ne_closed _ _ NB) (nested_noStr _ _ _ NB) E) as [_ NX FR _ _].
      assert (RE : forall p x, reach h2 b p x -> x = b). { intros p x [[_ R]|R]; [exact R|destruct (empty_reads _ _ _ _ EB R)]. }
      assert (FO : forall x, x < hnext h -> hcell h' x = hcell h2 x).
      { intros x X. apply FR; [lia|]. intros p q _ _ R. apply RE in R. unfold b in R. lia. }
      assert (CA : hcell h' a = set k (VMap b) (hcell h a)).
      { rewrite FO by auto. unfold h2, Put. rewrite store_same. unfold h1. rewrite alloc_old by auto. reflexivity. }
      destruct (replace_sub h a k b h') as (_ & R2 & R3 & _); auto.
      * lia.
      * intros k' Hk. rewrite CA. apply lookup_set_other. auto.
      * rewrite CA. apply lookup_set_same.
      * intros x X1 X2 _. rewrite FO by auto. unfold h2, Put. rewrite store_other by auto. apply alloc_old. auto.
      * intros p x R. right. destruct (RB p x R) as [Q|Q]; [apply RE in Q; unfold b in Q; lia|lia].
Qed.

(** every map of the heap has each key once *)
Definition uniqueKeys (h : heap) : Prop := forall c, NoDup (map fst (hcell h c)).
Lemma set_keys {A} k (v : A) l k' : In k' (map fst (set k v l)) <-> k' = k \/ In k' (map fst l).
Proof.
  induction l as [|[k2 v2] r IH]; cbn [set map fst In]; [intuition|]. destruct (String.eqb_spec k k2) as [->|]; cbn [map fst In]; [intuition|rewrite IH; intuition].
Qed.
Lemma set_NoDup {A} k (v : A) l : NoDup (map fst l) -> NoDup (map fst (set k v l)).
Proof.
  induction l as [|[k2 v2] r IH]; cbn [set map fst]; intros ND; [repeat constructor; auto|]. inversion ND as [|? ? N1 N2]; subst.
  destruct (String.eqb_spec k k2) as [->|]; cbn [map fst]; constructor; auto. rewrite set_keys. intros [->|I]; [congruence|auto].
Qed.
Lemma uniqueKeys_Put h a k v : uniqueKeys h -> uniqueKeys (Put h a k v).
Proof. intros U c. unfold Put. destruct (Nat.eq_dec a c) as [->|]; [rewrite store_same; apply set_NoDup, U|rewrite store_other by auto; apply U]. Qed.
Lemma uniqueKeys_alloc h : uniqueKeys h -> uniqueKeys (snd (alloc h)).
Proof. intros U c. cbn. destruct (Nat.eqb (hnext h) c); [constructor|apply U]. Qed.
Lemma uniqueKeys_putDots ks v : forall h a h', uniqueKeys h -> putDots h a ks v = Ok h' -> uniqueKeys h'.
Proof.
  induction ks as [|k [|k2 r] IH]; intros h a h' U E; [injection E as <-; auto|injection E as <-; apply uniqueKeys_Put; auto|].
  cbn [putDots] in E. destruct (lookup k (hcell h a)) as [u|].
  - destruct u; try discriminate; [eapply IH; eauto|]. destruct r; [injection E as <-; auto|]. destruct (lookup k2 l); [discriminate|injection E as <-; auto].
  - eapply IH; [|exact E]. apply uniqueKeys_Put. apply (uniqueKeys_alloc h U).
Qed.

(** *** building a map from paths *)
Definition prefixFree (l : list (list string * val)) : Prop := forall p v q w, In (p, v) l -> In (q, w) l -> prefix p q -> p = q /\ v = w.
Definition fits (l : list (list string * val)) : Prop := forall p v, In (p, v) l -> p <> [] /\ allFree p /\ leaf v /\ forall s, v <> VStrMap s.

Record built (h0 : heap) (b : nat) (S : list (list string * val)) (h : heap) : Prop := mkBuilt {
  bt_nested : nested h b;
  bt_unique : uniqueKeys h;
  bt_next : hnext h0 <= hnext h;
  bt_frame : forall c, c < hnext h0 -> c <> b -> hcell h c = hcell h0 c;
  bt_reach : forall p c, reach h b p c -> c = b \/ hnext h0 <= c;
  bt_leaf : forall p v, leaf v -> (reads h b p v <-> In (p, v) S);
  bt_map : forall p, p <> [] -> ((exists c, reads h b p (VMap c)) <-> exists q v, In (q, v) S /\ prefix p q /\ p <> q) }.

Lemma prefix_refl p : prefix p p. Proof. exists []. rewrite app_nil_r. reflexivity. Qed.
Lemma prefix_antisym p q : prefix p q -> prefix q p -> p = q.
Proof.
  intros [r ->] [t E]. rewrite <- app_assoc in E. assert (r ++ t = []) by (apply (app_inv_head p); rewrite app_nil_r; auto). apply app_eq_nil in H as [-> _]. rewrite app_nil_r. reflexivity.
Qed.

Lemma built_step h0 b S h ks v : built h0 b S h -> ks <> [] -> allFree ks -> leaf v -> (forall s, v <> VStrMap s) ->
  (forall q w, In (q, w) S -> ~ prefix q ks /\ ~ prefix ks q) -> exists h', PutWithDot h b (dots ks) v = Ok h' /\ built h0 b ((ks, v) :: S) h'.
Proof.
  intros [B1 B2 B3 B4 B5 B6 B7] Hne AF Lv SV PF. pose proof (split_dots ks Hne AF) as SD.
  assert (EX : exists h', PutWithDot h b (dots ks) v = Ok h').
  { destruct (C27_put_fails h b (dots ks) v B1) as [F [E|E]]; [|exact E]. exfalso. apply F in E as (p & q & w & E1 & E2 & R & Lw). rewrite SD in E1.
    apply (B6 p w Lw) in R. destruct (PF p w R) as [P _]. apply P. exists q. exact E1. }
  destruct EX as [h' E]. exists h'. split; [exact E|]. pose proof (PutWithDot_ok _ _ _ _ _ B1 E) as PO. rewrite SD in PO. destruct PO as [RD NX FR EL _].
  assert (ED : putDots h b ks v = Ok h').
  { unfold PutWithDot in E. rewrite SD in E. destruct ks as [|k [|k2 r]]; auto. }
  destruct (putDots_nested ks v Hne Lv SV h b h' B1 ED) as [N' R'].
  assert (NR : forall p w, prefix ks p -> p <> ks -> ~ reads h' b p w).
  { intros p w [t ->] NE R. destruct t as [|k t]; [rewrite app_nil_r in NE; auto|]. destruct (reads_through _ _ _ _ _ _ Hne R) as [c Rc].
    pose proof (reads_fun _ _ _ _ _ RD Rc) as X. apply (Lv c X). }
  assert (TH : forall p, prefix p ks -> p <> ks -> p <> [] -> exists c, reads h' b p (VMap c)).
  { intros p [t Et] NE NP. rewrite Et in RD. destruct t as [|k t]; [rewrite app_nil_r in Et; congruence|]. apply (reads_through _ _ _ _ _ _ NP RD). }
  constructor.
  - exact N'.
  - eapply uniqueKeys_putDots; eauto.
  - lia.
  - intros c C1 C2. rewrite FR; [auto|lia|]. intros p q _ _ R. apply B5 in R as [R|R]; [congruence|lia].
  - intros p c R. apply R' in R as [R|R]; [apply B5 in R; auto|right; lia].
  - intros p w Lw. cbn [In]. destruct (list_eq_dec string_dec p ks) as [->|NE].
    + split; [intros R; left; f_equal; eapply reads_fun; eauto|]. intros [X|X]; [injection X as <-; exact RD|]. destruct (PF _ _ X) as [P _]. destruct (P (prefix_refl ks)).
    + destruct (prefix_dec p ks) as [P|NP].
      * split; [|intros [X|X]; [congruence|destruct (PF _ _ X); contradiction]]. intros R. destruct p as [|k p]; [destruct (reads_nil _ _ _ R)|].
        destruct (TH (k :: p) P NE) as [c Rc]; [discriminate|]. pose proof (reads_fun _ _ _ _ _ R Rc) as X. destruct (Lw c X).
      * destruct (prefix_dec ks p) as [P|NP2].
        -- split; [intros R; destruct (NR p w P NE R)|intros [X|X]; [congruence|destruct (PF _ _ X); contradiction]].
        -- rewrite EL by auto. rewrite B6 by auto. split; [auto|intros [X|X]; [congruence|auto]].
  - intros p Hp. cbn [In]. destruct (list_eq_dec string_dec p ks) as [->|NE].
    + split.
      * intros [c R]. pose proof (reads_fun _ _ _ _ _ RD R) as X. destruct (Lv c X).
      * intros (q & w & [X|X] & P & NQ); [congruence|]. destruct (PF _ _ X); contradiction.
    + destruct (prefix_dec p ks) as [P|NP].
      * split; [intros _; exists ks, v; auto|intros _; apply TH; auto].
      * destruct (prefix_dec ks p) as [P|NP2].
        -- split; [intros [c R]; destruct (NR p _ P NE R)|]. intros (q & w & [X|X] & P2 & NQ); [injection X as <- <-; contradiction|].
           destruct (PF _ _ X) as [_ Q]. destruct Q. destruct P as [t ->]. destruct P2 as [u ->]. exists (t ++ u). rewrite app_assoc. reflexivity.
        -- transitivity (exists c, reads h b p (VMap c)); [split; intros [c R]; exists c; apply (EL p (VMap c)); auto|].
           rewrite B7 by auto. split; intros (q & w & X & P & NQ); exists q, w; [auto|]. destruct X as [X|X]; [injection X as <- <-; contradiction|auto].
Qed.

Lemma putAll_ok l : forall h0 b S h, fits l -> prefixFree (l ++ S) -> NoDup (map fst l ++ map fst S) -> built h0 b S h ->
  exists h', putAllDots h b (map (fun pv => (dots (fst pv), snd pv)) l) = Ok h' /\ built h0 b (rev l ++ S) h'.
Proof.
  induction l as [|[ks v] r IH]; intros h0 b S h F P ND B; [exists h; auto|]. cbn [map putAllDots fst snd].
  destruct (F ks v (or_introl eq_refl)) as (F1 & F2 & F3 & F4). cbn [map fst app] in ND. inversion ND as [|? ? N1 N2]; subst.
  destruct (built_step h0 b S h ks v B F1 F2 F3 F4) as (h1 & E1 & B1).
  { intros q w I. assert (IN : In (q, w) (((ks, v) :: r) ++ S)) by (right; apply in_or_app; auto).
    assert (K : q <> ks). { intros ->. apply N1. apply in_or_app. right. apply in_map_iff. exists (ks, w). auto. }
    split; intros Q; apply K; [apply (P q w ks v)|symmetry; apply (P ks v q w)]; auto; left; auto. }
  rewrite E1. cbn [bind]. destruct (IH h0 b ((ks, v) :: S) h1) as (h' & E & B').
  - intros p w I. apply F. right. auto.
  - intros p w q u I1 I2. apply P; cbn [app In]; rewrite in_app_iff in *; cbn [In] in *; tauto.
  - cbn [map fst]. apply NoDup_Add with (a := ks) (l := map fst r ++ map fst S); [apply Add_app|auto].
  - exact B1.
  - exists h'. split; [exact E|]. cbn [rev]. rewrite <- app_assoc. exact B'.
Qed.

(** *** what Flatten lists *)
Lemma lookup_set_iff {A} s k (v w : A) l : lookup s (set k w l) = Some v <-> (s = k /\ v = w) \/ (s <> k /\ lookup s l = Some v).
Proof.
  destruct (string_dec s k) as [->|N].
  - rewrite lookup_set_same. split; [intros E; injection E as ->; auto|intros [[_ ->]|[N _]]; [auto|congruence]].
  - rewrite lookup_set_other by auto. split; [auto|intros [[E _]|[_ E]]; [congruence|auto]].
Qed.
Definition under (pre : string) (sub mp : list (string * val)) : list (string * val) :=
  fold_left (fun mp p => set (pre ++ "." ++ fst p)%string (snd p) mp) sub mp.
Lemma append_inj p : forall a b, (p ++ a = p ++ b)%string -> a = b.
Proof. induction p as [|c r IH]; cbn; intros a b E; [auto|]. injection E as E. auto. Qed.
Lemma under_iff pre sub : forall mp s v, NoDup (map fst sub) ->
  (lookup s (under pre sub mp) = Some v <-> (exists t, s = (pre ++ "." ++ t)%string /\ In (t, v) sub) \/ ((forall t, In t (map fst sub) -> s <> (pre ++ "." ++ t)%string) /\ lookup s mp = Some v)).
Proof.
  induction sub as [|[t w] r IH]; intros mp s v ND.
  - cbn. split; [intros E; right; split; auto|intros [(t & _ & [])|[_ E]]; auto].
  - inversion ND as [|? ? N1 N2]; subst. unfold under. cbn [fold_left fst snd map In]. fold (under pre r (set (pre ++ "." ++ t)%string w mp)). rewrite IH by auto. rewrite lookup_set_iff. split.
    + intros [(t' & E & I)|[H [[E1 E2]|[E1 E2]]]]; [left; exists t'; auto|left; exists t; subst; auto|]. right. split; [|auto]. intros t' [<-|I]; auto.
    + intros [(t' & E & [I|I])|[H E]].
      * injection I as <- <-. right. split; [|left; auto]. intros u I2 E2. subst s. apply append_inj in E2. cbn in E2. injection E2 as ->. contradiction.
      * left. exists t'. auto.
      * right. split; [intros u I; apply H; auto|]. right. split; auto.
Qed.
Lemma under_NoDup pre sub : forall mp, NoDup (map fst mp) -> NoDup (map fst (under pre sub mp)).
Proof. induction sub as [|[t w] r IH]; intros mp ND; [exact ND|]. apply IH, set_NoDup, ND. Qed.

Definition noSlices (h : heap) (a : nat) : Prop := forall p l, ~ reads h a p (VSlice l).
Lemma reads_free h a p v : goodKeys h a -> reads h a p v -> allFree p.
Proof.
  intros G. revert a G. induction p as [|k p IH]; intros a G R; [constructor|]. apply reads_key in R as (u & L & C). constructor.
  - apply (proj2 (G [] a (reach_nil h a))). apply in_map_iff. exists (k, u). split; auto. apply lookup_In; auto.
  - destruct C as [[-> _]|[_ (c & -> & R)]]; [constructor|]. apply (IH c); auto. eapply goodKeys_sub; eauto.
Qed.
Lemma reads_ne h a p v : reads h a p v -> p <> []. Proof. intros R ->. destruct (reads_nil _ _ _ R). Qed.

Lemma flatten_ok n : forall h a, nested h a -> goodKeys h a -> noSlices h a -> deep h a n ->
  exists fl, Flatten (S n) h a = Ok fl /\ NoDup (map fst fl) /\ forall s v, lookup s fl = Some v <-> exists p, s = dots p /\ reads h a p v /\ leaf v.
Proof.
  induction n as [n IH] using lt_wf_ind. intros h a N G NS D. destruct (G [] a (reach_nil h a)) as [ND DF].
  assert (ALL : forall k v, In (k, v) (hcell h a) -> lookup k (hcell h a) = Some v) by (intros; apply In_lookup; auto).
  cbn [Flatten].
  match goal with |- exists fl, ?f (hcell h a) [] = Ok fl /\ _ => set (loop := f) end.
  assert (H : forall l P mp, (forall k v, In (k, v) l -> lookup k (hcell h a) = Some v) -> (forall k, In k (map fst l) -> ~ In k P) -> NoDup (map fst l) ->
    NoDup (map fst mp) -> (forall s v, lookup s mp = Some v <-> exists k p, In k P /\ s = dots (k :: p) /\ reads h a (k :: p) v /\ leaf v) ->
    exists fl, loop l mp = Ok fl /\ NoDup (map fst fl) /\
      forall s v, lookup s fl = Some v <-> exists k p, (In k P \/ In k (map fst l)) /\ s = dots (k :: p) /\ reads h a (k :: p) v /\ leaf v).
  { induction l as [|[k v] r IHl]; intros P mp AL NP NDl NDm IV.
    - exists mp. split; [reflexivity|]. split; [auto|]. intros s v. rewrite IV. cbn. split; intros (k & p & X); exists k, p; tauto.
    - assert (LK : lookup k (hcell h a) = Some v) by (apply AL; left; auto).
      assert (FREE : forall p w, reads h a p w -> allFree p) by (intros; eapply reads_free; eauto).
      assert (DK : dotFree k = true) by (apply DF, in_map_iff; exists (k, v); split; auto; apply lookup_In; auto).
      assert (NKP : ~ In k P) by (apply NP; left; auto).
      assert (SETS : exists mp', loop ((k, v) :: r) mp = loop r mp' /\ NoDup (map fst mp') /\ forall s w, lookup s mp' = Some w <-> exists k' p, In k' (k :: P) /\ s = dots (k' :: p) /\ reads h a (k' :: p) w /\ leaf w).
      { unfold loop at 1. unfold GetDynMap. rewrite (Get_plain h a k DK), LK. fold loop.
        destruct (leaf_dec v) as [Lv|[c ->]].
        - exists (set k v mp). assert (toDyn h v = None) as ->.
          { destruct v; try reflexivity; [destruct (Lv a0 eq_refl)|]. destruct (ne_strings _ _ N [k] l). constructor. exact LK. }
          split; [|split; [apply set_NoDup; auto|]].
          + destruct v; try reflexivity. destruct (NS [k] l). constructor. exact LK.
          + intros s w. rewrite lookup_set_iff, IV. split.
            * intros [[-> ->]|[NE (k' & p & I & X)]]; [exists k, []; split; [left; auto|]; split; [reflexivity|]; split; [constructor; auto|auto]|]. exists k', p. split; [right; auto|auto].
            * intros (k' & p & [<-|I] & -> & R & Lw).
              -- left. apply reads_key in R as (u & L & [[-> ->]|[_ (c & -> & _)]]); rewrite LK in L; injection L as L; [split; [reflexivity|congruence]|destruct (Lv c L)].
              -- right. split; [|exists k', p; auto]. intros E. change k with (dots [k]) in E. apply dots_inj in E; try discriminate; [injection E as -> _; contradiction|eapply FREE; eauto|repeat constructor; auto].
        - cbn [toDyn]. assert (DC : exists m, n = S m /\ deep h c m).
          { destruct n as [|m]; [exfalso; assert (1 <= 0); [|lia]; apply (D [k] (VMap c)); constructor; exact LK|]. exists m. split; auto. intros p w R. destruct p as [|k2 p]; [cbn; lia|].
            assert (length (k :: k2 :: p) <= S m) by (apply (D _ w); eapply rd_more; eauto). cbn in *. lia. }
          destruct DC as (m & -> & DC).
          destruct (IH m ltac:(lia) h c) as (sub & E & NDs & IS); [eapply nested_sub; eauto|eapply goodKeys_sub; eauto| |exact DC|].
          { intros p l R. apply (NS (k :: p) l). destruct p; [destruct (reads_nil _ _ _ R)|]. eapply rd_more; eauto. }
          exists (under k sub mp). rewrite E. cbn [bind]. split; [reflexivity|]. split; [apply under_NoDup; auto|]. intros s w. rewrite under_iff by auto. rewrite IV. split.
          + intros [(t & -> & I)|[NE (k' & p & I & X)]]; [|exists k', p; split; [right; auto|auto]].
            apply (In_lookup t w sub NDs) in I. apply IS in I as (p & -> & R & Lw). exists k, p. split; [left; auto|]. destruct p as [|k2 p]; [destruct (reads_nil _ _ _ R)|].
            split; [reflexivity|]. split; [|exact Lw]. eapply rd_more; eauto.
          + intros (k' & p & [<-|I] & -> & R & Lw).
            * left. apply reads_key in R as (u & L & [[-> ->]|[Hp (c' & -> & R)]]); rewrite LK in L; injection L as L; [subst w; destruct (Lw c eq_refl)|]. subst c'.
              exists (dots p). split; [destruct p; [congruence|reflexivity]|]. apply lookup_In, IS. exists p. auto.
            * right. split; [|exists k', p; auto]. intros t T E2. apply in_map_iff in T as ([t' u] & Et & T). cbn in Et. subst t'. apply (In_lookup t u sub NDs) in T. apply IS in T as (q & -> & Rq & _).
              assert (Hq : q <> []) by (eapply reads_ne; eauto). destruct q as [|k2 q]; [congruence|]. rewrite <- dots_cons in E2.
              apply dots_inj in E2; try discriminate; [injection E2 as -> _; contradiction|eapply FREE; eauto|]. apply (FREE _ u). eapply rd_more; eauto. }
      destruct SETS as (mp' & E & NDm' & IV'). rewrite E. inversion NDl as [|? ? N1 N2]; subst.
      destruct (IHl (k :: P) mp') as (fl & E' & NDf & F).
      + intros k' v' I. apply AL. right. auto.
      + intros k' I [<-|I2]; [contradiction|]. apply (NP k'); [right; auto|exact I2].
      + exact N2.
      + exact NDm'.
      + exact IV'.
      + exists fl. split; [exact E'|]. split; [exact NDf|]. intros s w. rewrite F. cbn [map fst In]. split; intros (k' & p & I & X); exists k', p; split; try exact X; tauto. }
  destruct (H (hcell h a) [] []) as (fl & E & NDf & F); auto.
  - constructor.
  - intros s v. cbn. split; [discriminate|intros (k & p & [] & _)].
  - exists fl. split; [exact E|]. split; [exact NDf|]. intros s v. rewrite F. split.
    + intros (k & p & _ & -> & R & Lv). exists (k :: p). auto.
    + intros (p & -> & R & Lv). destruct p as [|k p]; [destruct (reads_nil _ _ _ R)|]. exists k, p. split; [|auto]. right. apply reads_key in R as (u & L & _). apply lookup_In in L. apply in_map_iff. exists (k, u). auto.
Qed.
