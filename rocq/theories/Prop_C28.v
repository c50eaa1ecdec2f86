(** C28: merging maps is right-biased and deep. *)
From Coq Require Import String List ZArith Bool Arith Lia.
From Verif Require Import Num DynModel DynProofs Prop_C27 MergeProofs DynCheck.
Import ListNotations.
Local Open Scope string_scope.
Local Open Scope list_scope.

(** two maps as separate JSON texts give them, with keys without dots, the second at most [n] levels deep *)
Record separate (h : heap) (a b n : nat) : Prop := mkSeparate {
  se_a : nested h a; se_b : nested h b; se_apart : disjoint h a b; se_keys_a : goodKeys h a; se_keys_b : goodKeys h b; se_deep : deep h b n }.

Lemma plainKeys h a key : goodKeys h a -> dotFree key = true \/ lookup key (hcell h a) = None.
Proof.
  intros G. destruct (lookup key (hcell h a)) eqn:L; [left|right; auto]. apply (proj2 (G [] a (reach_nil h a))). apply in_map_iff. exists (key, v). split; auto. apply lookup_In; auto.
Qed.
Lemma merged_plain h a b h' key : goodKeys h a -> goodKeys h b -> merged h a b h' -> dotFree key = true \/ lookup key (hcell h' a) = None.
Proof.
  intros GA GB M. destruct (lookup key (hcell h' a)) as [v|] eqn:L; [left|right; auto]. apply reads_one in L.
  assert (K : forall x w, goodKeys h x -> reads h x [key] w -> dotFree key = true).
  { intros x w G R. apply reads_one in R. destruct (plainKeys h x key G) as [D|D]; [auto|congruence]. }
  destruct (leaf_dec v) as [Lv|[c ->]].
  - apply (mg_leaf _ _ _ _ M) in L; auto. destruct L as [R|[R _]]; [exact (K b v GB R)|exact (K a v GA R)].
  - assert (E : exists c, reads h' a [key] (VMap c)) by eauto. apply (mg_map _ _ _ _ M) in E. destruct E as [[x R]|[[x R] _]]; [exact (K b _ GB R)|exact (K a _ GA R)].
Qed.

(** Merge succeeds; the merged map holds at every path exactly what the two maps prescribe: the leaves and maps of the second, and those
    of the first where the second has nothing and no leaf on the way.  The second map is not changed and nothing is shared with it. *)
Theorem C28_merge h a b n : separate h a b n -> exists h', Merge (S n) h a b = Ok h' /\
  (forall p v, leaf v -> (reads h' a p v <-> leafMerge h a b p v)) /\
  (forall p, (exists c, reads h' a p (VMap c)) <-> mapMerge h a b p) /\
  (forall p v, reads h' b p v <-> reads h b p v) /\ nested h' a /\ disjoint h' a b.
Proof.
  intros [A B D GA GB DP]. destruct (merge_ok n h a b A B D GB DP) as (h' & E & M). exists h'. split; [exact E|].
  assert (FB : forall q c, reach h b q c -> hcell h' c = hcell h c).
  { intros q c R. apply (mg_frame _ _ _ _ M); [apply (ne_closed _ _ B _ _ R)|]. intros p Q. apply (D p q c Q R). }
  split; [apply M|]. split; [apply M|]. split; [intros p v; apply reads_frame; auto|]. split; [apply M|].
  intros p q c R1 R2. apply (reach_frame h h' b q c FB) in R2. apply (mg_reach _ _ _ _ M) in R1 as [R1|R1]; [apply (D p q c R1 R2)|]. apply (ne_closed _ _ B) in R2. lia.
Qed.
Print Assumptions C28_merge.

(** in terms of Get: every leaf of the second map is read in the result *)
Theorem C28_right h a b n h' key v : separate h a b n -> Merge (S n) h a b = Ok h' -> leaf v -> Get h b key = Some v -> Get h' a key = Some v.
Proof.
  intros [A B D GA GB DP] E Lv G. destruct (merge_ok n h a b A B D GB DP) as (h2 & E2 & M). rewrite E2 in E. injection E as ->.
  apply Get_reads in G; [|auto|apply plainKeys; auto]. apply Get_reads; [apply M|eapply merged_plain; eauto|]. apply (mg_leaf _ _ _ _ M); auto. left. exact G.
Qed.
Print Assumptions C28_right.
(** and every leaf of the first map that the second one does not touch is kept *)
Theorem C28_left h a b n h' key v : separate h a b n -> Merge (S n) h a b = Ok h' -> leaf v -> Get h a key = Some v ->
  (forall w, ~ reads h b (splitDots key) w) -> (forall q w, prefix q (splitDots key) -> reads h b q w -> exists c, w = VMap c) -> Get h' a key = Some v.
Proof.
  intros [A B D GA GB DP] E Lv G NO TH. destruct (merge_ok n h a b A B D GB DP) as (h2 & E2 & M). rewrite E2 in E. injection E as ->.
  apply Get_reads in G; [|auto|apply plainKeys; auto]. apply Get_reads; [apply M|eapply merged_plain; eauto|]. apply (mg_leaf _ _ _ _ M); auto. right.
  split; [exact G|]. split; [|exact NO]. intros q w P R Lw. destruct (TH q w P R) as [c ->]. apply (Lw c eq_refl).
Qed.
Print Assumptions C28_left.
(** nothing else appears *)
Theorem C28_nothing_else h a b n h' key v : separate h a b n -> Merge (S n) h a b = Ok h' -> leaf v -> Get h' a key = Some v ->
  Get h b key = Some v \/ Get h a key = Some v.
Proof.
  intros [A B D GA GB DP] E Lv G. destruct (merge_ok n h a b A B D GB DP) as (h2 & E2 & M). rewrite E2 in E. injection E as ->.
  apply Get_reads in G; [|apply M|eapply merged_plain; eauto]. apply (mg_leaf _ _ _ _ M) in G; auto.
  destruct G as [R|[R _]]; [left|right]; apply Get_reads; auto; apply plainKeys; auto.
Qed.
Print Assumptions C28_nothing_else.

(** merging with an empty map changes nothing *)
Theorem C28_empty h a b n : hcell h b = [] -> Merge (S n) h a b = Ok h.
Proof. intros E. cbn [Merge]. rewrite E. reflexivity. Qed.
Print Assumptions C28_empty.

(** *** merging a map with itself *)
Lemma set_same (k : string) (v : val) l : lookup k l = Some v -> set k v l = l.
Proof.
  induction l as [|[k' v'] r IH]; cbn; [discriminate|]. destruct (String.eqb_spec k k') as [->|]; [intros E; injection E as ->; auto|]. intros L. rewrite IH; auto.
Qed.
Definition sameHeap (h h' : heap) : Prop := hnext h' = hnext h /\ forall c, hcell h' c = hcell h c.
Lemma sameHeap_reads h h' a p v : sameHeap h h' -> (reads h' a p v <-> reads h a p v).
Proof. intros [_ E]. apply reads_frame. auto. Qed.
Lemma sameHeap_sym h h' : sameHeap h h' -> sameHeap h' h. Proof. intros [E1 E2]. split; intros; symmetry; auto. Qed.
Lemma sameHeap_trans h1 h2 h3 : sameHeap h1 h2 -> sameHeap h2 h3 -> sameHeap h1 h3.
Proof. intros [A B] [C D]. split; [congruence|]. intros c. rewrite D, B. reflexivity. Qed.
Lemma sameHeap_nested h h' a : sameHeap h h' -> nested h a -> nested h' a.
Proof. intros [E1 E2] N. apply (nested_frame h); auto. lia. Qed.

Lemma self_ok n : forall h a, nested h a -> goodKeys h a -> deep h a n -> exists h', Merge (S n) h a a = Ok h' /\ sameHeap h h'.
Proof.
  induction n as [n IH] using lt_wf_ind. intros h0 a N0 G0 D0. destruct (G0 [] a (reach_nil h0 a)) as [ND DF].
  assert (H : forall l h, (forall k v, In (k, v) l -> lookup k (hcell h0 a) = Some v) -> (forall k, In k (map fst l) -> dotFree k = true) -> sameHeap h0 h ->
    exists h', (fix loop (l : list (string * val)) (h : heap) : res heap :=
         match l with
         | [] => Ok h
         | (key, value) :: r =>
             bind (match GetDynMap h a key with
                   | Some (m, h1) =>
                       match GetDynMap h1 a key with
                       | Some (m2, h2) => Merge n h2 m2 m
                       | None => let '(c, h2) := alloc h1 in bind (Merge n h2 c m) (fun h3 => Ok (Put h3 a key (VMap c)))
                       end
                   | None => Ok (Put h a key value)
                   end) (fun h' => loop r h')
         end) l h = Ok h' /\ sameHeap h0 h').
  2:{ apply (H (hcell h0 a) h0); auto; [intros; apply In_lookup; auto|split; auto]. }
  induction l as [|[k v] r IHl]; intros h L DK S; [exists h; auto|].
  assert (LK : lookup k (hcell h a) = Some v) by (rewrite (proj2 S); apply L; left; auto).
  assert (Dk : dotFree k = true) by (apply DK; left; auto).
  assert (N : nested h a) by (apply (sameHeap_nested h0); auto).
  assert (ST : exists h', (match GetDynMap h a k with
                   | Some (m, h1) =>
                       match GetDynMap h1 a k with
                       | Some (m2, h2) => Merge n h2 m2 m
                       | None => let '(c, h2) := alloc h1 in bind (Merge n h2 c m) (fun h3 => Ok (Put h3 a k (VMap c)))
                       end
                   | None => Ok (Put h a k v)
                   end) = Ok h' /\ sameHeap h h').
  { unfold GetDynMap at 1. rewrite (Get_plain h a k Dk), LK. destruct (leaf_dec v) as [Lv|[c ->]].
    - assert (toDyn h v = None) as ->.
      { destruct v; try reflexivity; [destruct (Lv a0 eq_refl)|]. destruct (ne_strings _ _ N [k] l). constructor. exact LK. }
      eexists. split; [reflexivity|]. unfold Put. rewrite (set_same k v) by auto. split; [reflexivity|]. intros c. cbn. destruct (Nat.eqb_spec a c); congruence.
    - cbn [toDyn]. unfold GetDynMap. rewrite (Get_plain h a k Dk), LK. cbn [toDyn].
      assert (DH : deep h a n) by (intros p w R; apply (D0 p w); apply (sameHeap_reads h0 h a p w S); auto).
      destruct n as [|m]; [exfalso; assert (1 <= 0); [|lia]; apply (DH [k] (VMap c)); constructor; exact LK|].
      apply (IH m); [lia|eapply nested_sub; eauto| |].
      + intros p x R. assert (Q : reach h a (k :: p) x) by (apply reach_cons; eauto). apply (reach_frame h0 h a (k :: p) x) in Q; [|intros; apply S]. rewrite (proj2 S). apply (G0 _ _ Q).
      + intros p w R. destruct p as [|k2 p]; [cbn; lia|]. assert (length (k :: k2 :: p) <= Datatypes.S m) by (apply (DH _ w); eapply rd_more; eauto). cbn in *. lia. }
  destruct ST as (h' & E & S'). rewrite E. cbn [bind]. apply IHl; [intros; apply L; right; auto|intros; apply DK; right; auto|eapply sameHeap_trans; eauto].
Qed.
(** merging a map with itself changes nothing *)
Theorem C28_self h a n : nested h a -> goodKeys h a -> deep h a n -> exists h', Merge (S n) h a a = Ok h' /\ hnext h' = hnext h /\ forall c, hcell h' c = hcell h c.
Proof. intros N G D. destruct (self_ok n h a N G D) as (h' & E & S). exists h'. split; [exact E|exact S]. Qed.
Print Assumptions C28_self.

(** *** Clone *)
(** A clone reads the same as the original at every path, the original is not changed, and no map found from one is found from the other. *)
Theorem C28_clone h a n : nested h a -> goodKeys h a -> deep h a n -> exists c h', Clone (S n) h a = Ok (c, h') /\
  (forall p v, leaf v -> (reads h' c p v <-> reads h a p v)) /\ (forall p, (exists x, reads h' c p (VMap x)) <-> (exists x, reads h a p (VMap x))) /\
  (forall p v, reads h' a p v <-> reads h a p v) /\ nested h' c /\ disjoint h' c a.
Proof.
  intros N G D. unfold Clone. cbn [alloc]. set (h1 := snd (alloc h)).
  assert (GE : goodKeys h1 (hnext h)).
  { intros p x [[_ ->]|R]; [|destruct (empty_reads _ _ _ _ (alloc_new h) R)]. unfold h1. rewrite alloc_new. split; [constructor|intros k []]. }
  destruct (C28_merge h1 (hnext h) a n) as (h2 & E & M1 & M2 & M3 & M4 & M5).
  { constructor; auto.
    - apply empty_nested; [apply alloc_new|cbn; lia].
    - apply alloc_nested; auto.
    - intros p q x [[-> ->]|R1] R2; [|destruct (empty_reads _ _ _ _ (alloc_new h) R1)]. apply (alloc_reach h a) in R2; auto. apply (ne_closed _ _ N) in R2. lia.
    - intros p x R. apply (alloc_reach h a) in R; auto. unfold h1. rewrite alloc_old by (apply (ne_closed _ _ N _ _ R)). apply (G p x R).
    - intros p w R. apply (alloc_reads h a) in R; auto. apply (D p w R). }
  exists (hnext h), h2. unfold h1 in E. cbn [alloc snd] in E. rewrite E. split; [reflexivity|]. split; [|split; [|split; [|split]]]; auto.
  - intros p v Lv. rewrite M1 by auto. unfold leafMerge, h1. rewrite (alloc_reads h a p v N). split; [intros [R|[R _]]; auto; destruct (empty_reads _ _ _ _ (alloc_new h) R)|auto].
  - intros p. rewrite M2. unfold mapMerge. split.
    + intros [[x R]|[[x R] _]]; [exists x; apply (alloc_reads h a); auto|destruct (empty_reads _ _ _ _ (alloc_new h) R)].
    + intros [x R]. left. exists x. apply (alloc_reads h a); auto.
  - intros p v. rewrite M3. apply alloc_reads; auto.
Qed.
Print Assumptions C28_clone.

(** *** concrete maps *)
(** 0 is {"size": {"w": 3, "h": 4}, "name": "box"}; 2 is {"size": {"w": 9, "cut": {"d": 1}}, "kind": "edge"} *)
Definition two : heap := mkHeap 5 (fun a => match a with
  | 0 => [("size", VMap 1); ("name", VStr "box")] | 1 => [("w", VInt 3); ("h", VInt 4)]
  | 2 => [("size", VMap 3); ("kind", VStr "edge")] | 3 => [("w", VInt 9); ("cut", VMap 4)] | 4 => [("d", VInt 1)] | _ => [] end).
Example two_separate : separate two 0 2 3.
Proof.
  constructor; [apply (okNested_ok 4)|apply (okNested_ok 4)|apply (okApart_ok 4)|apply (okKeys_ok 4)|apply (okKeys_ok 4)|apply (okDeep_ok 4)]; reflexivity.
Qed.
Definition gotAt (r : res heap) (a : nat) (key : string) : option val := match r with Ok h => Get h a key | _ => None end.
Example C28_merge_example :
  map (gotAt (Merge 4 two 0 2) 0) ["size.w"; "size.h"; "size.cut.d"; "name"; "kind"] = [Some (VInt 9); Some (VInt 4); Some (VInt 1); Some (VStr "box"); Some (VStr "edge")] /\
  Get two 2 "size.cut.d" = Some (VInt 1) /\ Get two 0 "size.h" = Some (VInt 4) /\ (forall w, ~ reads two 2 (splitDots "size.h") w) /\
  map (gotAt (Merge 4 two 2 2) 2) ["size.w"; "size.cut.d"; "kind"] = [Some (VInt 9); Some (VInt 1); Some (VStr "edge")].
Proof.
  repeat split. intros w R. assert (In (splitDots "size.h", w) [(["size"], VMap 3); (["size"; "w"], VInt 9); (["size"; "cut"], VMap 4); (["size"; "cut"; "d"], VInt 1); (["kind"], VStr "edge")]).
  { apply (listing_all 4 two 2 _ eq_refl _ _ R). }
  cbn in H. repeat destruct H as [H|H]; try discriminate; destruct H.
Qed.
Definition cloneAt (r : res (nat * heap)) (key : string) : option val := match r with Ok (c, h) => Get h c key | _ => None end.
Example C28_clone_example : map (cloneAt (Clone 4 two 2)) ["size.w"; "size.cut.d"; "kind"] = [Some (VInt 9); Some (VInt 1); Some (VStr "edge")].
Proof. reflexivity. Qed.

(** Finding: slices are not cloned.  The clone of {"parts": [{"w": 3}]} holds the same inner map as the original, so a Put into the clone's
    part changes the original's part. *)
Definition listed : heap := mkHeap 2 (fun a => match a with 0 => [("parts", VSlice [VMap 1])] | 1 => [("w", VInt 3)] | _ => [] end).
Theorem C28_clone_shares_refuted : nested listed 0 /\ exists c h', Clone 2 listed 0 = Ok (c, h') /\ c <> 0 /\
  Get h' c "parts" = Some (VSlice [VMap 1]) /\ Get h' 0 "parts" = Some (VSlice [VMap 1]) /\
  Get h' 1 "w" = Some (VInt 3) /\ Get (Put h' 1 "w" (VInt 8)) 1 "w" = Some (VInt 8).
Proof. split; [apply (okNested_ok 2); reflexivity|]. do 2 eexists. split; [reflexivity|]. repeat split. discriminate. Qed.
Print Assumptions C28_clone_shares_refuted.
(** Finding: merging into a map[string]string is lost, as it goes to a copy: {"attrs": map[string]string{"x": "1"}} merged with
    {"attrs": {"y": 2}} has no attrs.y. *)
Definition attrs : heap := mkHeap 3 (fun a => match a with 0 => [("attrs", VStrMap [("x", "1")])] | 1 => [("attrs", VMap 2)] | 2 => [("y", VInt 2)] | _ => [] end).
Theorem C28_string_map_refuted : Get attrs 1 "attrs.y" = Some (VInt 2) /\ exists h', Merge 3 attrs 0 1 = Ok h' /\ Get h' 0 "attrs.y" = None.
Proof. split; [reflexivity|]. eexists. split; reflexivity. Qed.
Print Assumptions C28_string_map_refuted.
