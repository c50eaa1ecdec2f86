(** C101: the fields of log messages and the lines printed. *)
From Coq Require Import String List Arith ZArith Bool Lia.
From Verif Require Import Num DynModel DynProofs Prop_C27 MergeProofs Prop_C28 DynCheck LogModel LogFields.
Import ListNotations.
Local Open Scope string_scope.
Local Open Scope list_scope.

(** a map as JSON gives it, without dots in its keys, at most [n] levels deep *)
Record plain (h : heap) (a n : nat) : Prop := mkPlain { pl_nested : nested h a; pl_keys : goodKeys h a; pl_deep : deep h a n }.
(** no map holds a key twice, as in Go *)
Definition unique (h : heap) : Prop := forall x, NoDup (map fst (hcell h x)) /\ forall k l, In (k, VStrMap l) (hcell h x) -> NoDup (map fst l).

Lemma set_keys k (v : val) l : NoDup (map fst l) -> NoDup (map fst (set k v l)).
Proof.
  assert (I : forall k' (l : list (string * val)), In k' (map fst (set k v l)) -> k' = k \/ In k' (map fst l)).
  { intros k'. induction l0 as [|[k0 v0] r IH]; cbn; [intros [E|[]]; auto|]. destruct (String.eqb_spec k k0) as [->|]; cbn; intros [E|E]; auto. destruct (IH E); auto. }
  induction l as [|[k0 v0] r IH]; cbn; [repeat constructor; tauto|]. intros N. inversion N as [|x y N1 N2]; subst.
  destruct (String.eqb_spec k k0) as [->|D]; cbn; constructor; auto. intros J. apply I in J. destruct J; [congruence|auto].
Qed.
Lemma set_in k (v : val) l k' v' : In (k', v') (set k v l) -> v' = v \/ In (k', v') l.
Proof. induction l as [|[k0 v0] r IH]; cbn; [intros [E|[]]; inversion E; auto|]. destruct (String.eqb k k0); cbn; intros [E|E]; auto; [inversion E; auto|destruct (IH E); auto]. Qed.
Definition fine (v : val) : Prop := forall l, v = VStrMap l -> NoDup (map fst l).
Lemma put_unique h a k v : unique h -> fine v -> unique (Put h a k v).
Proof.
  intros U F x. unfold Put. cbn. destruct (Nat.eqb a x); [|apply U]. split; [apply set_keys; apply U|].
  intros k0 l I. apply set_in in I as [E|I]; [apply F; auto|apply (proj2 (U a) k0 l I)].
Qed.
Lemma alloc_unique h : unique h -> unique (snd (alloc h)).
Proof. intros U x. cbn. destruct (Nat.eqb (hnext h) x); [split; [constructor|intros k l []]|apply U]. Qed.
Lemma toDyn_unique h v m h' : unique h -> fine v -> toDyn h v = Some (m, h') -> unique h'.
Proof.
  intros U F. destruct v; try discriminate; cbn; intros E; injection E as <- <-; auto.
  intros x. cbn. destruct (Nat.eqb (hnext h) x); [|apply U].
  split; [rewrite map_map; cbn; apply F; reflexivity|]. intros k l0 I. apply in_map_iff in I as (p & E & _). discriminate.
Qed.
Lemma lookup_fine h a k v : unique h -> lookup k (hcell h a) = Some v -> fine v.
Proof. intros U L l ->. apply lookup_In in L. apply (proj2 (U a) _ _ L). Qed.
Lemma walk_fine h ks : forall l v, unique h -> (forall k w, lookup k l = Some w -> fine w) -> walk h l ks = Some v -> fine v.
Proof.
  induction ks as [|k r IH]; intros l v U F W; [discriminate|]. destruct r as [|k2 r]; [apply (F k); exact W|].
  change (match lookup k l with Some v => match entries h v with Some l' => walk h l' (k2 :: r) | None => None end | None => None end = Some v) in W.
  destruct (lookup k l) as [w|] eqn:L; [|discriminate]. destruct (entries h w) as [l'|] eqn:E; [|discriminate].
  apply (IH l' v U); auto. intros k' w' L'. destruct w; try discriminate; injection E as <-; [eapply lookup_fine; eauto|].
  apply lookup_In, in_map_iff in L' as (p & P & _). injection P as _ <-. intros ? D. discriminate.
Qed.
Lemma Get_fine h a k v : unique h -> Get h a k = Some v -> fine v.
Proof.
  intros U. unfold Get. destruct (lookup k (hcell h a)) eqn:L; [intros E; injection E as <-; eapply lookup_fine; eauto|].
  destruct (splitDots k) as [|k1 [|k2 r]]; [discriminate|discriminate|]. apply walk_fine; auto. intros k' w. apply lookup_fine; auto.
Qed.
Lemma merge_unique n : forall h a b h', unique h -> Merge n h a b = Ok h' -> unique h'.
Proof.
  induction n as [|n IH]; intros h0 a b h' U E; [discriminate|]. cbn [Merge] in E.
  assert (F : forall k v, In (k, v) (hcell h0 b) -> fine v) by (intros k v I l ->; apply (proj2 (U b) _ _ I)).
  remember (hcell h0 b) as l eqn:EL. clear EL. revert h0 h' U E F. induction l as [|[k v] r IHl]; intros h0 h' U E F; [injection E as <-; auto|].
  match type of E with bind ?Y _ = _ => destruct Y as [h2| | |] eqn:X; try discriminate end. cbn [bind] in E.
  apply (IHl h2 h'); auto; [|intros k0 v0 I; apply (F k0); right; exact I].
  unfold GetDynMap in X. destruct (Get h0 b k) as [w|] eqn:G.
  - destruct (toDyn h0 w) as [[m h1]|] eqn:T.
    + assert (U1 : unique h1) by (eapply toDyn_unique; eauto; eapply Get_fine; eauto). destruct (Get h1 a k) as [w2|] eqn:G2.
      * destruct (toDyn h1 w2) as [[m2 h3]|] eqn:T2.
        -- apply (IH h3 m2 m); auto. eapply toDyn_unique; eauto. eapply Get_fine; eauto.
        -- cbn [alloc] in X. destruct (Merge n _ (hnext h1) m) as [h3| | |] eqn:M; try discriminate. injection X as <-.
           apply put_unique; [|intros ? D; discriminate]. apply (IH _ _ _ _ (alloc_unique _ U1) M).
      * cbn [alloc] in X. destruct (Merge n _ (hnext h1) m) as [h3| | |] eqn:M; try discriminate. injection X as <-.
        apply put_unique; [|intros ? D; discriminate]. apply (IH _ _ _ _ (alloc_unique _ U1) M).
    + injection X as <-. apply put_unique; auto. apply (F k). left. reflexivity.
  - injection X as <-. apply put_unique; auto. apply (F k). left. reflexivity.
Qed.
Lemma reach_same h h' a p x : (forall q c, reach h a q c -> hcell h' c = hcell h c) -> (reach h' a p x <-> reach h a p x).
Proof. apply reach_frame. Qed.

Lemma plain_frame h h' a n : plain h a n -> hnext h <= hnext h' -> (forall x, x < hnext h -> hcell h' x = hcell h x) -> plain h' a n.
Proof.
  intros [N G D] L F. assert (FR : forall q c, reach h a q c -> hcell h' c = hcell h c) by (intros q c R; apply F, (ne_closed _ _ N _ _ R)).
  constructor.
  - apply (nested_frame h); auto.
  - intros p c R. pose proof (proj1 (reach_frame h h' a p c FR) R) as R'. rewrite (FR _ _ R'). apply (G p c R').
  - intros p v R. apply (D p v). apply (reads_frame h h'); auto.
Qed.
Lemma frame_reads h h' a p v : nested h a -> (forall x, x < hnext h -> hcell h' x = hcell h x) -> (reads h' a p v <-> reads h a p v).
Proof. intros N F. apply reads_frame. intros q b R. apply F, (ne_closed _ _ N _ _ R). Qed.

Lemma last_read h a p c k v : reach h a p c -> lookup k (hcell h c) = Some v -> reads h a (p ++ [k]) v.
Proof. intros R L. apply (reads_app h p a c [k] v R). constructor. exact L. Qed.

(** what was merged has good keys and is no deeper, if that holds of both maps *)
Lemma merged_plain2 h a b h' n : plain h a n -> plain h b n -> unique h' -> merged h a b h' -> plain h' a n.
Proof.
  intros PA PB U M.
  assert (FROM : forall p v, reads h' a p v -> exists x w, (x = a \/ x = b) /\ reads h x p w).
  { intros p v R. destruct (leaf_dec v) as [L|[y ->]].
    - apply (mg_leaf _ _ _ _ M) in R; auto. destruct R as [Q|[Q _]]; eauto.
    - assert (E : exists c, reads h' a p (VMap c)) by eauto. apply (mg_map _ _ _ _ M) in E. destruct E as [[z Q]|[[z Q] _]]; eauto. }
  constructor.
  - exact (mg_nested _ _ _ _ M).
  - intros p c R. split; [apply (proj1 (U c))|]. intros k I.
    destruct (lookup k (hcell h' c)) as [v|] eqn:L.
    + pose proof (last_read _ _ _ _ _ _ R L) as Q. destruct (FROM _ _ Q) as (x & w & X & W).
      assert (G : goodKeys h x) by (destruct X as [->| ->]; [apply (pl_keys _ _ _ PA)|apply (pl_keys _ _ _ PB)]).
      assert (exists d u, reach h x p d /\ lookup k (hcell h d) = Some u) as (d & u & R2 & L2).
      { clear - W. revert x W. induction p as [|k0 p IH]; intros x W.
        - exists x, w. split; [apply reach_nil|]. apply reads_one in W. exact W.
        - cbn [app] in W. apply reads_key in W as (u & L & [[E _]|[_ (c & -> & W)]]); [destruct p; discriminate|].
          destruct (IH c W) as (d & u & R & L2). exists d, u. split; auto. apply reach_cons. eauto. }
      apply (proj2 (G p d R2)). apply lookup_In in L2. apply in_map_iff. exists (k, u). auto.
    + exfalso. apply in_map_iff in I as ((k', v) & E & I). cbn in E. subst k'. rewrite (In_lookup k v _ (proj1 (U c)) I) in L. discriminate.
  - intros p v R. destruct (FROM _ _ R) as (x & w & [->| ->] & W); [apply (pl_deep _ _ _ PA _ _ W)|apply (pl_deep _ _ _ PB _ _ W)].
Qed.

(** what the fields of a message are: those of the call over those of the log *)
Lemma withStatic_ok h a b n : plain h a n -> plain h b n -> unique h -> exists c h', withStatic (S n) h a b = Ok (c, h') /\
  hnext h <= hnext h' /\ (forall x, x < hnext h -> hcell h' x = hcell h x) /\ plain h' c n /\ unique h' /\
  (forall p v, leaf v -> (reads h' c p v <-> leafMerge h a b p v)) /\ (forall p, (exists x, reads h' c p (VMap x)) <-> mapMerge h a b p) /\
  (hcell h a = [] -> c = b) /\ (hcell h a <> [] -> forall p x, reach h' c p x -> hnext h <= x).
Proof.
  intros PA PB U. unfold withStatic, IsEmpty. destruct (hcell h a) as [|e0 r0] eqn:EA.
  - exists b, h. split; [reflexivity|]. do 4 (split; [auto|]). split; [|split; [|split; [auto|congruence]]].
    + intros p v L. unfold leafMerge. split; [auto|]. intros [R|[R _]]; [auto|destruct (empty_reads _ _ _ _ EA R)].
    + intros p. unfold mapMerge. split; [auto|]. intros [R|[[x R] _]]; [auto|destruct (empty_reads _ _ _ _ EA R)].
  - set (h1 := snd (alloc h)). set (e := hnext h).
    assert (F1 : forall x, x < hnext h -> hcell h1 x = hcell h x) by (intros x X; apply alloc_old; auto).
    assert (N1 : hnext h1 = S e) by reflexivity.
    assert (EE : hcell h1 e = []) by (apply alloc_new).
    assert (PE : plain h1 e n).
    { constructor; [apply empty_nested; [auto|rewrite N1; lia]| |intros p v R; destruct (empty_reads _ _ _ _ EE R)].
      intros p c [[_ ->]|R]; [|destruct (empty_reads _ _ _ _ EE R)]. rewrite EE. split; [constructor|intros k []]. }
    assert (PA1 : plain h1 a n) by (apply (plain_frame h); auto; rewrite N1; unfold e; lia).
    assert (U1 : unique h1) by (apply alloc_unique; auto).
    assert (D1 : disjoint h1 e a).
    { intros p q x [[_ ->]|R] Q; [|destruct (empty_reads _ _ _ _ EE R)].
      apply (reach_frame h h1 a q e) in Q; [apply (ne_closed _ _ (pl_nested _ _ _ PA)) in Q; unfold e in Q; lia|].
      intros q' c R. apply F1, (ne_closed _ _ (pl_nested _ _ _ PA) _ _ R). }
    destruct (merge_ok n h1 e a (pl_nested _ _ _ PE) (pl_nested _ _ _ PA1) D1 (pl_keys _ _ _ PA1) (pl_deep _ _ _ PA1)) as (h2 & E2 & M2).
    assert (U2 : unique h2) by (eapply merge_unique; eauto).
    assert (R2 : forall p x, reach h2 e p x -> hnext h <= x).
    { intros p x R. apply (mg_reach _ _ _ _ M2) in R as [[[_ ->]|R]|R]; [unfold e; lia|destruct (empty_reads _ _ _ _ EE R)|rewrite N1 in R; unfold e in R; lia]. }
    assert (F2 : forall x, x < hnext h -> hcell h2 x = hcell h x).
    { intros x X. rewrite (mg_frame _ _ _ _ M2); [auto|rewrite N1; unfold e; lia|]. intros p [[_ ->]|R]; [unfold e in X; lia|destruct (empty_reads _ _ _ _ EE R)]. }
    assert (N2 : hnext h <= hnext h2) by (pose proof (mg_next _ _ _ _ M2); rewrite N1 in *; unfold e in *; lia).
    assert (PE2 : plain h2 e n) by (eapply merged_plain2; eauto).
    assert (PB2 : plain h2 b n) by (apply (plain_frame h); auto).
    assert (D2 : disjoint h2 e b).
    { intros p q x R Q. apply R2 in R. apply (reach_frame h h2 b q x) in Q; [apply (ne_closed _ _ (pl_nested _ _ _ PB)) in Q; lia|].
      intros q' c R'. apply F2, (ne_closed _ _ (pl_nested _ _ _ PB) _ _ R'). }
    destruct (merge_ok n h2 e b (pl_nested _ _ _ PE2) (pl_nested _ _ _ PB2) D2 (pl_keys _ _ _ PB2) (pl_deep _ _ _ PB2)) as (h3 & E3 & M3).
    exists e, h3. unfold Clone. cbn [alloc]. change (mkHeap _ _) with h1. fold e. rewrite E2. cbn [bind fst snd]. rewrite E3. cbn [bind].
    assert (RB : forall p v, reads h2 b p v <-> reads h b p v) by (intros; apply frame_reads; auto; apply (pl_nested _ _ _ PB)).
    assert (LE : forall p v, leaf v -> (reads h2 e p v <-> reads h a p v)).
    { intros p v L. rewrite (mg_leaf _ _ _ _ M2) by auto. unfold leafMerge. rewrite (frame_reads h h1 a p v (pl_nested _ _ _ PA) F1).
      split; [intros [R|[R _]]; [auto|destruct (empty_reads _ _ _ _ EE R)]|auto]. }
    assert (ME : forall p, (exists x, reads h2 e p (VMap x)) <-> (exists x, reads h a p (VMap x))).
    { intros p. rewrite (mg_map _ _ _ _ M2). unfold mapMerge. split.
      - intros [[x R]|[[x R] _]]; [|destruct (empty_reads _ _ _ _ EE R)]. exists x. apply (frame_reads h h1 a p _ (pl_nested _ _ _ PA) F1). auto.
      - intros [x R]. left. exists x. apply (frame_reads h h1 a p _ (pl_nested _ _ _ PA) F1). auto. }
    assert (TB : forall p, throughMaps h2 b p <-> throughMaps h b p) by (intros p; apply throughMaps_ext; intros; apply RB).
    split; [reflexivity|]. split; [pose proof (mg_next _ _ _ _ M3); lia|]. split.
    { intros x X. rewrite (mg_frame _ _ _ _ M3); [auto|lia|]. intros p R. apply R2 in R. lia. }
    assert (U3 : unique h3) by (eapply merge_unique; eauto). split; [eapply merged_plain2; eauto|]. split; [auto|]. split; [|split; [|split]].
    + intros p v L. rewrite (mg_leaf _ _ _ _ M3) by auto. unfold leafMerge. rewrite RB, TB, LE by auto. split; (intros [R|(R & T & N)]; [auto|right; split; [auto|split; [auto|]]]); intros w Q; apply RB in Q; apply (N w Q).
    + intros p. rewrite (mg_map _ _ _ _ M3). unfold mapMerge. rewrite TB, ME. split; (intros [[x R]|R]; [left; exists x; apply RB; auto|auto]).
    + discriminate.
    + intros _ p x R. apply (mg_reach _ _ _ _ M3) in R as [R|R]; [apply R2 in R; auto|lia].
Qed.

Lemma change_same i f s : nth_error (change i f s) i = option_map f (nth_error s i).
Proof. revert i. induction s as [|l r IH]; intros [|i]; cbn; auto. Qed.
Lemma change_other i j f s : j <> i -> nth_error (change i f s) j = nth_error s j.
Proof. revert i j. induction s as [|l r IH]; intros [|i] [|j] D; cbn; auto; congruence. Qed.
Lemma change_length i f s : length (change i f s) = length s.
Proof. revert i. induction s as [|l r IH]; intros [|i]; cbn; auto. Qed.

(** what a log keeps of a message: the level, text and time of the call *)
Definition tells (m : entry) (lev : level) (text : string) (now : Z) : Prop := e_level m = lev /\ e_text m = text /\ e_time m = now.
(** [m] is the only thing added to the messages of the log *)
Definition keeps (l l' : flog) (m : entry) : Prop := f_entries l' = f_entries l ++ [m] /\ f_stdout l' = f_stdout l /\ f_static l' = f_static l /\ f_parent l' = f_parent l.

(** A message logged on a log is kept with the fields of the call laid over the static fields of the log; the log's parent, if it has
    one, keeps it once more, with these fields laid over its own static fields.  No map that was there before is changed, and no other log. *)
Theorem C101_fields n i lev b text now w l : nth_error (w_logs w) i = Some l -> unique (w_heap w) -> plain (w_heap w) (f_static l) n -> plain (w_heap w) b n ->
  (forall p, f_parent l = Some p -> p <> i /\ exists lp, nth_error (w_logs w) p = Some lp /\ plain (w_heap w) (f_static lp) n) ->
  exists w' l' m, logf (S n) i lev b text now w = Ok w' /\ nth_error (w_logs w') i = Some l' /\ keeps l l' m /\ tells m lev text now /\
    (forall q v, leaf v -> (reads (w_heap w') (e_fields m) q v <-> leafMerge (w_heap w) (f_static l) b q v)) /\
    (forall q, (exists x, reads (w_heap w') (e_fields m) q (VMap x)) <-> mapMerge (w_heap w) (f_static l) b q) /\
    (forall p lp, f_parent l = Some p -> nth_error (w_logs w) p = Some lp -> exists lp' mp, nth_error (w_logs w') p = Some lp' /\ keeps lp lp' mp /\ tells mp lev text now /\
      (forall q v, leaf v -> (reads (w_heap w') (e_fields mp) q v <-> leafMerge (w_heap w') (f_static lp) (e_fields m) q v)) /\
      (forall q, (exists x, reads (w_heap w') (e_fields mp) q (VMap x)) <-> mapMerge (w_heap w') (f_static lp) (e_fields m) q)) /\
    (forall x, x < hnext (w_heap w) -> hcell (w_heap w') x = hcell (w_heap w) x) /\
    (forall j, j <> i -> f_parent l <> Some j -> nth_error (w_logs w') j = nth_error (w_logs w) j) /\ length (w_logs w') = length (w_logs w).
Proof.
  intros L U PS PB PP. destruct (withStatic_ok _ _ _ n PS PB U) as (c & h1 & E1 & N1 & F1 & P1 & U1 & Lf1 & Mp1 & _).
  unfold logf. rewrite L, E1. cbn [bind fst snd]. set (m := mkEntry c now lev text). set (s := change i (addEntry m) (w_logs w)).
  assert (SI : nth_error s i = Some (addEntry m l)) by (unfold s; rewrite change_same, L; reflexivity).
  destruct (f_parent l) as [p|] eqn:FP.
  - destruct (PP p eq_refl) as (NP & lp & LP & PLP). assert (SP : nth_error s p = Some lp) by (unfold s; rewrite change_other; auto).
    assert (PLP1 : plain h1 (f_static lp) n) by (apply (plain_frame (w_heap w)); auto).
    destruct (withStatic_ok h1 (f_static lp) c n PLP1 P1 U1) as (c2 & h2 & E2 & N2 & F2 & P2 & U2 & Lf2 & Mp2 & _).
    unfold logFromChild. rewrite SP. cbn [e_fields m]. rewrite E2. cbn [bind fst snd]. set (mp := mkEntry c2 (e_time m) (e_level m) (e_text m)).
    eexists. exists (addEntry m l), m. split; [reflexivity|]. cbn [w_logs w_heap].
    assert (RC : forall q v, reads h2 c q v <-> reads h1 c q v) by (intros; apply frame_reads; auto; apply (pl_nested _ _ _ P1)).
    assert (RS : forall q v, reads h2 (f_static lp) q v <-> reads h1 (f_static lp) q v) by (intros; apply frame_reads; auto; apply (pl_nested _ _ _ PLP1)).
    split; [rewrite change_other by auto; exact SI|]. split; [repeat split|]. split; [repeat split|].
    split; [intros q v Lv; cbn [e_fields m]; rewrite RC; auto|].
    split; [intros q; rewrite <- Mp1; split; intros [x R]; exists x; apply RC; auto|]. split; [|split; [|split]].
    + intros p0 lp0 Ep L0. injection Ep as <-. rewrite LP in L0. injection L0 as <-. exists (addEntry mp lp), mp.
      split; [rewrite change_same, SP; reflexivity|]. split; [repeat split|]. split; [repeat split|]. split.
      * intros q v Lv. cbn [e_fields mp m]. rewrite Lf2 by auto. symmetry. apply leafMerge_ext; intros; [apply RS|apply RC].
      * intros q. cbn [e_fields mp m]. rewrite Mp2. symmetry. apply mapMerge_ext; intros; [apply RS|apply RC].
    + intros x X. rewrite F2 by lia. auto.
    + intros j J1 J2. rewrite change_other by congruence. unfold s. apply change_other. auto.
    + unfold s. rewrite !change_length. reflexivity.
  - eexists. exists (addEntry m l), m. split; [reflexivity|]. cbn [w_logs w_heap fst snd].
    split; [exact SI|]. split; [repeat split|]. split; [repeat split|]. split; [auto|]. split; [auto|]. split; [discriminate|]. split; [auto|]. split.
    + intros j J1 _. unfold s. apply change_other. auto.
    + unfold s. apply change_length.
Qed.
Print Assumptions C101_fields.

(** the log of RenderAll and that of one file, with the name of the file as its static field *)
Definition twoLogs : world := mkWorld (mkHeap 3 (fun a => match a with 1 => [("filename", VStr "box.hfd")] | 2 => [("part", VStr "lid"); ("at", VInt 3)] | _ => [] end))
  [mkFlog Error [] 0 None; mkFlog Error [] 1 (Some 0)] [].
Lemma twoLogs_unique : unique (w_heap twoLogs).
Proof.
  intros x. destruct x as [|[|[|x]]]; cbn; (split; [|intros k l I; repeat (destruct I as [I|I]; [discriminate|]); destruct I]);
    repeat (constructor; [cbn; intros I; repeat (destruct I as [I|I]; [discriminate|]); destruct I|]); constructor.
Qed.
Lemma plain_check h a n d : okNested d h a = true -> okKeys d h a = true -> okDeep d n h a = true -> plain h a n.
Proof. intros A B C. constructor; [apply (okNested_ok d)|apply (okKeys_ok d)|apply (okDeep_ok d)]; auto. Qed.

Example C101_fields_example : (exists l, nth_error (w_logs twoLogs) 1 = Some l /\ unique (w_heap twoLogs) /\ plain (w_heap twoLogs) (f_static l) 1 /\ plain (w_heap twoLogs) 2 1 /\
    (forall p, f_parent l = Some p -> p <> 1 /\ exists lp, nth_error (w_logs twoLogs) p = Some lp /\ plain (w_heap twoLogs) (f_static lp) 1)) /\
  exists w', logf 2 1 Error 2 "no path" 7 twoLogs = Ok w' /\ map (fun l => map (fun m => (hcell (w_heap w') (e_fields m), e_text m)) (f_entries l)) (w_logs w') =
    [[([("filename", VStr "box.hfd"); ("part", VStr "lid"); ("at", VInt 3)], "no path")]; [([("filename", VStr "box.hfd"); ("part", VStr "lid"); ("at", VInt 3)], "no path")]] /\
    w_printed w' = ["ERROR:: no path"].
Proof.
  split; [|eexists; split; [reflexivity|split; reflexivity]]. eexists. split; [reflexivity|]. split; [exact twoLogs_unique|].
  split; [apply (plain_check _ _ _ 2); reflexivity|]. split; [apply (plain_check _ _ _ 2); reflexivity|].
  intros p E. injection E as <-. split; [lia|]. eexists. split; [reflexivity|]. apply (plain_check _ _ _ 2); reflexivity.
Qed.

(** If the log has static fields, the maps of the message's fields are new: what the caller does with its maps afterwards does not show in the message. *)
Theorem C101_apart n i lev b text now w l : nth_error (w_logs w) i = Some l -> unique (w_heap w) -> plain (w_heap w) (f_static l) n -> plain (w_heap w) b n ->
  f_parent l = None -> (exists k v, lookup k (hcell (w_heap w) (f_static l)) = Some v) ->
  exists w' l' m, logf (S n) i lev b text now w = Ok w' /\ nth_error (w_logs w') i = Some l' /\ f_entries l' = f_entries l ++ [m] /\
    forall x k v, x < hnext (w_heap w) -> forall q u, reads (Put (w_heap w') x k v) (e_fields m) q u <-> reads (w_heap w') (e_fields m) q u.
Proof.
  intros L U PS PB FP (k0 & v0 & K). destruct (withStatic_ok _ _ _ n PS PB U) as (c & h1 & E1 & N1 & F1 & P1 & U1 & Lf1 & Mp1 & _ & NEW).
  unfold logf. rewrite L, E1, FP. cbn [bind fst snd]. do 3 eexists. split; [reflexivity|]. cbn [w_logs w_heap].
  split; [rewrite change_same, L; reflexivity|]. split; [reflexivity|]. cbn [e_fields]. intros x k v X q u. apply reads_frame.
  intros q' y R. unfold Put. apply store_other. intros ->. apply NEW in R; [lia|]. intros Z. rewrite Z in K. discriminate.
Qed.
Print Assumptions C101_apart.
Definition oneLog : world := mkWorld (w_heap twoLogs) [mkFlog Error [] 1 None] [].
Example C101_apart_example : (exists l, nth_error (w_logs oneLog) 0 = Some l /\ unique (w_heap oneLog) /\ plain (w_heap oneLog) (f_static l) 1 /\ plain (w_heap oneLog) 2 1 /\ f_parent l = None /\
    (exists k v, lookup k (hcell (w_heap oneLog) (f_static l)) = Some v)) /\
  exists w' m, logf 2 0 Info 2 "done" 7 oneLog = Ok w' /\ map f_entries (w_logs w') = [[m]] /\ Get (Put (w_heap w') 2 "at" (VInt 9)) 2 "at" = Some (VInt 9) /\
    Get (Put (w_heap w') 2 "at" (VInt 9)) (e_fields m) "at" = Some (VInt 3).
Proof.
  split; [|do 2 eexists; split; [reflexivity|split; [reflexivity|split; reflexivity]]]. eexists. split; [reflexivity|]. split; [exact twoLogs_unique|].
  split; [apply (plain_check _ _ _ 2); reflexivity|]. split; [apply (plain_check _ _ _ 2); reflexivity|]. split; [reflexivity|]. exists "filename", (VStr "box.hfd"). reflexivity.
Qed.
(** Finding: without static fields the message keeps the caller's own map; a message already logged changes when the caller uses its map again. *)
Theorem C101_shared_refuted : exists w w' m, logf 1 0 Info 2 "first" 7 w = Ok w' /\ map f_entries (w_logs w') = [[m]] /\
  Get (w_heap w') (e_fields m) "at" = Some (VInt 3) /\ Get (Put (w_heap w') 2 "at" (VInt 9)) (e_fields m) "at" = Some (VInt 9).
Proof. exists (mkWorld (w_heap twoLogs) [mkFlog Error [] 0 None] []). do 2 eexists. split; [reflexivity|]. split; [reflexivity|]. split; reflexivity. Qed.
Print Assumptions C101_shared_refuted.

(** *** a message as a map *)
(** The map of a message has its fields, but "message", "timestamp" and "level" are those of the message, also where a field has such a name; the message is not changed. *)
Theorem C101_as_map n e h : unique h -> plain h (e_fields e) n -> exists c h', entryMap (S n) e h = Ok (c, h') /\
  (forall q u, reads h' c ("message" :: q) u <-> q = [] /\ u = VStr (e_text e)) /\
  (forall q u, reads h' c ("timestamp" :: q) u <-> q = [] /\ u = VTime (e_time e)) /\
  (forall q u, reads h' c ("level" :: q) u <-> q = [] /\ u = VStr (match e_level e with Debug => "debug" | Info => "info" | Error => "error" | Fatal => "fatal" end)) /\
  (forall k q u, k <> "message" -> k <> "timestamp" -> k <> "level" -> leaf u -> (reads h' c (k :: q) u <-> reads h (e_fields e) (k :: q) u)) /\
  (forall x, x < hnext h -> hcell h' x = hcell h x).
Proof.
  intros U P. unfold entryMap.
  destruct (C28_clone h (e_fields e) n (pl_nested _ _ _ P) (pl_keys _ _ _ P) (pl_deep _ _ _ P)) as (c & h1 & E & Lf & _ & _ & N1 & _).
  assert (F1 : c = hnext h /\ forall x, x < hnext h -> hcell h1 x = hcell h x).
  { assert (FN : hcell (snd (alloc h)) (hnext h) = []) by apply alloc_new. unfold Clone in E. cbn [alloc] in E. change (mkHeap _ _) with (snd (alloc h)) in E.
    assert (PF : plain (snd (alloc h)) (e_fields e) n) by (apply (plain_frame h); auto; [cbn; lia|intros; apply alloc_old; auto]).
    destruct (merge_ok n (snd (alloc h)) (hnext h) (e_fields e)) as (h2 & E2 & M2).
    - apply empty_nested; [auto|cbn; lia].
    - apply (pl_nested _ _ _ PF).
    - intros p q x [[_ ->]|R] Q; [|destruct (empty_reads _ _ _ _ FN R)]. apply (alloc_reach h (e_fields e) q (hnext h)) in Q; [|apply (pl_nested _ _ _ P)]. apply (ne_closed _ _ (pl_nested _ _ _ P)) in Q. lia.
    - apply (pl_keys _ _ _ PF).
    - apply (pl_deep _ _ _ PF).
    - rewrite E2 in E. cbn [bind] in E. injection E as <- <-. split; [auto|]. intros x X. rewrite (mg_frame _ _ _ _ M2); [apply alloc_old; auto|cbn; lia|].
      intros p [[_ ->]|R]; [lia|destruct (empty_reads _ _ _ _ FN R)]. }
  destruct F1 as [Ec F1]. rewrite E. cbn [bind fst snd].
  set (h2 := Put h1 c "message" _). set (h3 := Put h2 c "timestamp" _). set (h4 := Put h3 c "level" _).
  destruct (replace_leaf h1 c "message" (VStr (e_text e)) N1) as (_ & N2 & _ & O2 & K2); [intros b; discriminate|intros l; discriminate|]. fold h2 in N2, O2, K2.
  destruct (replace_leaf h2 c "timestamp" (VTime (e_time e)) N2) as (_ & N3 & _ & O3 & K3); [intros b; discriminate|intros l; discriminate|]. fold h3 in N3, O3, K3.
  destruct (replace_leaf h3 c "level" (VStr (levelName (e_level e))) N3) as (_ & N4 & _ & O4 & K4); [intros b; discriminate|intros l; discriminate|]. fold h4 in N4, O4, K4.
  exists c, h4. split; [reflexivity|]. split; [|split; [|split; [|split]]].
  - intros q u. rewrite O4, O3 by discriminate. apply K2.
  - intros q u. rewrite O4 by discriminate. apply K3.
  - intros q u. apply K4.
  - intros k q u D1 D2 D3 Lu. rewrite O4, O3, O2 by auto. apply Lf; auto.
  - intros x X. unfold h4, h3, h2, Put. rewrite !store_other by lia. auto.
Qed.
Print Assumptions C101_as_map.
Definition named : heap := mkHeap 1 (fun a => match a with 0 => [("level", VInt 4); ("part", VStr "lid")] | _ => [] end).
Example C101_as_map_example : unique named /\ plain named 0 1 /\
  exists c h', entryMap 2 (mkEntry 0 7 Error "no path") named = Ok (c, h') /\
    hcell h' c = [("level", VStr "error"); ("part", VStr "lid"); ("message", VStr "no path"); ("timestamp", VTime 7)] /\ hcell h' 0 = [("level", VInt 4); ("part", VStr "lid")].
Proof.
  split; [|split; [apply (plain_check _ _ _ 2); reflexivity|do 2 eexists; split; [reflexivity|split; reflexivity]]].
  intros x. destruct x as [|x]; cbn; (split; [|intros k l I; repeat (destruct I as [I|I]; [discriminate|]); destruct I]);
    repeat (constructor; [cbn; intros I; repeat (destruct I as [I|I]; [discriminate|]); destruct I|]); constructor.
Qed.

(** *** what is printed *)
(** [lev] is at least as severe as [t] *)
Definition shown (t lev : level) : bool :=
  match t, lev with Debug, _ => true | Info, Debug => false | Info, _ => true | Error, (Debug | Info) => false | Error, _ => true | Fatal, Fatal => true | Fatal, _ => false end.
Definition shout (lev : level) (text : string) : string :=
  match lev with Debug => "DEBUG:: " ++ text | Info => "INFO:: " ++ text | Error => "ERROR:: " ++ text | Fatal => "FATAL:: " ++ text end.
(** of a history, the latest call first: how many logs there are, *)
Fixpoint made (r : list act) : nat := match r with [] => 0 | ANew :: q => S (made q) | AChild _ :: q => S (made q) | _ :: q => made q end.
(** the level from which on log [i] prints: what was set last, or that of its parent when it was made, or error *)
Fixpoint threshold (r : list act) (i : nat) : level :=
  match r with
  | [] => Error
  | ANew :: q => if Nat.eqb i (made q) then Error else threshold q i
  | AChild j :: q => if Nat.eqb i (made q) then threshold q j else threshold q i
  | AStdOut j l :: q => if Nat.eqb i j then l else threshold q i
  | _ :: q => threshold q i
  end.
(** and the lines printed *)
Fixpoint lines (r : list act) : list string :=
  match r with
  | [] => []
  | ALog i lev text _ :: q => lines q ++ (if shown (threshold q i) lev then [shout lev text] else [])
  | _ :: q => lines q
  end.

Lemma shown_rank t lev : Nat.leb (rank t) (rank lev) = shown t lev. Proof. destruct t, lev; reflexivity. Qed.
Lemma shout_line lev text : line lev text = shout lev text. Proof. destruct lev; reflexivity. Qed.
Definition says (r : list act) (w : world) : Prop := length (w_logs w) = made r /\ (forall i l, nth_error (w_logs w) i = Some l -> f_stdout l = threshold r i) /\ w_printed w = lines r.
Lemma change_stdout i f s j l : (forall l, f_stdout (f l) = f_stdout l) -> nth_error (change i f s) j = Some l -> exists l0, nth_error s j = Some l0 /\ f_stdout l = f_stdout l0.
Proof.
  intros F E. destruct (Nat.eq_dec j i) as [->|D].
  - rewrite change_same in E. destruct (nth_error s i) as [l0|]; [|discriminate]. injection E as <-. eauto.
  - rewrite change_other in E by auto. eauto.
Qed.
Lemma nth_snoc {A} (s : list A) x i l : nth_error (s ++ [x]) i = Some l -> (i = length s /\ l = x) \/ (i < length s /\ nth_error s i = Some l).
Proof.
  intros E. destruct (Nat.lt_ge_cases i (length s)) as [L|L].
  - rewrite nth_error_app1 in E by auto. auto.
  - rewrite nth_error_app2 in E by auto. destruct (i - length s) as [|d] eqn:S; [injection E as <-; left; split; [lia|auto]|destruct d; discriminate].
Qed.
Lemma perform_says fuel r w a w' : says r w -> perform fuel w a = Ok w' -> says (a :: r) w'.
Proof.
  intros (LEN & THR & PR) E. destruct a as [|i|i lv|i k v|i lv text now]; cbn [perform] in E.
  - injection E as <-. split; [|split]; cbn; [rewrite app_length; cbn; lia| |exact PR]. intros i l N. cbn in N. apply nth_snoc in N as [[-> ->]|[Lt N]].
    + rewrite LEN, Nat.eqb_refl. reflexivity.
    + rewrite LEN in Lt. destruct (Nat.eqb_spec i (made r)); [lia|]. apply THR; auto.
  - unfold newChild in E. destruct (nth_error (w_logs w) i) as [l0|] eqn:NI; [|discriminate]. injection E as <-. split; [|split]; cbn; [rewrite app_length; cbn; lia| |exact PR].
    intros j l N. apply nth_snoc in N as [[-> ->]|[Lt N]].
    + rewrite LEN, Nat.eqb_refl. cbn. apply THR; auto.
    + rewrite LEN in Lt. destruct (Nat.eqb_spec j (made r)); [lia|]. apply THR; auto.
  - destruct (nth_error (w_logs w) i) as [l0|] eqn:NI; [|discriminate]. injection E as <-. split; [|split]; cbn; [rewrite change_length; auto| |exact PR].
    intros j l N. destruct (Nat.eqb_spec j i) as [->|D]; [rewrite change_same, NI in N; injection N as <-; reflexivity|rewrite change_other in N by auto; apply THR; auto].
  - destruct (nth_error (w_logs w) i) as [l0|] eqn:NI; [|discriminate]. injection E as <-. split; [|split]; cbn; auto.
  - cbn [alloc] in E. unfold logf in E. cbn [w_logs w_heap w_printed] in E. destruct (nth_error (w_logs w) i) as [l0|] eqn:NI; [|discriminate].
    destruct (withStatic _ _ _ _) as [[c h1]| | |]; try discriminate. cbn [bind fst snd] in E. set (m := mkEntry c now lv text) in *. set (s := change i (addEntry m) (w_logs w)) in *.
    assert (LS : forall h' s', match f_parent l0 with Some p => logFromChild fuel p m h1 s | None => Ok (h1, s) end = Ok (h', s') ->
      length s' = made r /\ forall j l, nth_error s' j = Some l -> f_stdout l = threshold r j).
    { intros h' s' Q. assert (B : length s = made r /\ forall j l, nth_error s j = Some l -> f_stdout l = threshold r j).
      { split; [unfold s; rewrite change_length; auto|]. intros j l N. apply change_stdout in N as (l1 & N & ->); [|reflexivity]. apply THR; auto. }
      destruct B as [B1 B2]. destruct (f_parent l0) as [p|]; [|injection Q as <- <-; auto]. unfold logFromChild in Q. destruct (nth_error s p) as [lp|] eqn:NP; [|discriminate].
      destruct (withStatic _ _ _ _) as [[c2 h2]| | |]; try discriminate. injection Q as <- <-. split; [rewrite change_length; auto|].
      intros j l N. apply change_stdout in N as (l1 & N & ->); [|reflexivity]. apply B2; auto. }
    match type of E with bind ?Y _ = _ => destruct Y as [[h' s']| | |] eqn:EY; try discriminate end. destruct (LS _ _ eq_refl) as [Q1 Q2].
    cbn [bind fst snd] in E. injection E as <-. split; [|split]; cbn; auto. rewrite PR, shown_rank, (THR _ _ NI), shout_line. reflexivity.
Qed.
(** For every sequence of calls: a message is printed once, in the order of the calls, if it is at least as severe as the level of the log it is logged on (which a child takes
    over from its parent when it is made), and the parent prints nothing. *)
Theorem C101_printed fuel acts w : performs fuel start acts = Ok w -> w_printed w = lines (rev acts).
Proof.
  assert (G : forall cs r w0, says r w0 -> performs fuel w0 cs = Ok w -> says (rev cs ++ r) w).
  { induction cs as [|a q IH]; intros r w0 S E; [injection E as <-; exact S|]. cbn [performs] in E. destruct (perform fuel w0 a) as [w1| | |] eqn:P; try discriminate.
    cbn [rev]. rewrite <- app_assoc. apply (IH (a :: r) w1); auto. eapply perform_says; eauto. }
  intros E. assert (S : says [] start) by (split; [reflexivity|split; [intros [|i] l N; discriminate|reflexivity]]).
  pose proof (G acts [] start S E) as (_ & _ & P). rewrite app_nil_r in P. exact P.
Qed.
Print Assumptions C101_printed.
Example C101_printed_example :
  let calls := [ANew; AStdOut 0 Fatal; AChild 0; AStatic 1 "filename" (VStr "box.hfd"); AStdOut 0 Debug; ALog 1 Error "no path" 1; ALog 0 Info "done" 2; AChild 0; ALog 2 Debug "start" 3; ANew; ALog 3 Info "hidden" 4] in
  match performs 3 start calls with
  | Ok w => w_printed w = ["INFO:: done"; "DEBUG:: start"] /\ map (fun l => length (f_entries l)) (w_logs w) = [3; 1; 1; 1]
  | _ => False
  end.
Proof. vm_compute. split; reflexivity. Qed.

(** *** errors (see C45) *)
(** Finding: a message of the level above error, fatal, does not count as an error. *)
Theorem C45_fatal_refuted : exists h, h = [CNew; CLog 0 (Fatal, "out of memory")] /\ HasErrors 0 (run h) = false.
Proof. eexists. split; reflexivity. Qed.
Print Assumptions C45_fatal_refuted.
