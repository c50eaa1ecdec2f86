(** C29: flattening and unflattening are inverse. *)
From Coq Require Import String List ZArith Bool Arith Lia Permutation.
From Coq Require Import Decimal DecimalString DecimalNat.
From Coq Require Import List.
From Verif Require Import Num DynModel DynProofs Prop_C27 MergeProofs DynCheck FlattenProofs.
Import ListNotations.
Local Open Scope string_scope.
Local Open Scope list_scope.

(** a nested map of at most [n] levels with dot-free keys and without slices or empty parts *)
Record plainMap (h : heap) (a n : nat) : Prop := mkPlain {
  pm_unique : uniqueKeys h; pm_nested : nested h a; pm_keys : goodKeys h a; pm_slices : noSlices h a; pm_deep : deep h a n;
  pm_full : forall p c, reads h a p (VMap c) -> hcell h c <> [] }.
(** two maps hold the same values at the same paths *)
Definition sameMap (h : heap) (a : nat) (h' : heap) (b : nat) : Prop :=
  (forall p v, leaf v -> (reads h' b p v <-> reads h a p v)) /\ (forall p, (exists c, reads h' b p (VMap c)) <-> (exists c, reads h a p (VMap c))).

Lemma leaf_below n : forall h c, deep h c n -> (forall p d, reads h c p (VMap d) -> hcell h d <> []) -> hcell h c <> [] -> exists p v, reads h c p v /\ leaf v.
Proof.
  induction n as [|m IH]; intros h c D F NE; destruct (hcell h c) as [|[k v] r] eqn:E; try congruence.
  - assert (L : lookup k (hcell h c) = Some v) by (rewrite E; cbn; rewrite String.eqb_refl; auto). exfalso. assert (1 <= 0); [|lia]. apply (D [k] v). constructor. exact L.
  - assert (L : lookup k (hcell h c) = Some v) by (rewrite E; cbn; rewrite String.eqb_refl; auto).
    destruct (leaf_dec v) as [Lv|[d ->]]; [exists [k], v; split; [constructor; auto|auto]|].
    destruct (IH h d) as (p & v & R & Lv).
    + intros p w R. destruct p as [|k2 p]; [cbn; lia|]. assert (length (k :: k2 :: p) <= S m) by (apply (D _ w); eapply rd_more; eauto). cbn in *. lia.
    + intros p e R. destruct p as [|k2 p]; [destruct (reads_nil _ _ _ R)|]. apply (F (k :: k2 :: p)). eapply rd_more; eauto.
    + apply (F [k]). constructor. exact L.
    + destruct p as [|k2 p]; [destruct (reads_nil _ _ _ R)|]. exists (k :: k2 :: p), v. split; [eapply rd_more; eauto|auto].
Qed.
Lemma reads_reach h p : forall a q v, q <> [] -> reads h a (p ++ q) v -> exists c, reach h a p c /\ reads h c q v.
Proof.
  induction p as [|k p IH]; intros a q v Hq R; [exists a; split; [apply reach_nil|exact R]|]. cbn [app] in R. apply reads_key in R as (u & L & [[E _]|[_ (c & -> & R)]]).
  - apply app_eq_nil in E as [_ E]. congruence.
  - destruct (IH c q v Hq R) as (d & R1 & R2). exists d. split; [apply reach_cons; eauto|exact R2].
Qed.

(** the list of leaves, as paths *)
Definition paths (l : list (string * val)) : list (list string * val) := map (fun sv => (splitDots (fst sv), snd sv)) l.

Lemma unflatten_ok h a n fl l : plainMap h a n -> (forall s v, lookup s fl = Some v <-> exists p, s = dots p /\ reads h a p v /\ leaf v) -> NoDup (map fst fl) ->
  Permutation l fl -> exists b h', UnFlatten h l = Ok (b, h') /\ b = hnext h /\ sameMap h a h' b /\ uniqueKeys h' /\ nested h' b /\
  (forall c, c < hnext h -> hcell h' c = hcell h c) /\ (forall p c, reach h' b p c -> hnext h <= c).
Proof.
  intros [U N G NS D FU] IS ND PM.
  assert (NDl : NoDup (map fst l)) by (eapply Permutation_NoDup; [apply Permutation_sym, Permutation_map; exact PM|exact ND]).
  assert (INl : forall s v, In (s, v) l <-> exists p, s = dots p /\ reads h a p v /\ leaf v).
  { intros s v. rewrite <- IS. split; [intros I; apply In_lookup; auto; eapply Permutation_in; eauto|intros L; apply lookup_In in L; eapply Permutation_in; [apply Permutation_sym; exact PM|exact L]]. }
  assert (SD : forall p v, reads h a p v -> splitDots (dots p) = p) by (intros p v R; apply split_dots; [eapply reads_ne; eauto|eapply reads_free; eauto]).
  assert (INp : forall p v, In (p, v) (paths l) <-> reads h a p v /\ leaf v).
  { intros p v. unfold paths. rewrite in_map_iff. split.
    - intros ([s w] & E & I). cbn in E. injection E as <- <-. apply INl in I as (q & -> & R & Lv). rewrite (SD q w R). auto.
    - intros [R Lv]. exists (dots p, v). cbn. rewrite (SD p v R). split; auto. apply INl. exists p. auto. }
  assert (EL : map (fun pv => (dots (fst pv), snd pv)) (paths l) = l).
  { unfold paths. rewrite map_map. rewrite <- (map_id l) at 2. apply map_ext_in. intros [s v] I. cbn. apply INl in I as (p & -> & R & _). rewrite (SD p v R). reflexivity. }
  assert (NDp : NoDup (map fst (paths l))).
  { replace (map fst (paths l)) with (map splitDots (map fst l)) by (unfold paths; rewrite !map_map; reflexivity).
    assert (INJ : forall s t, In s (map fst l) -> In t (map fst l) -> splitDots s = splitDots t -> s = t).
    { intros s t I1 I2 E. apply in_map_iff in I1 as ([s' v] & <- & I1), I2 as ([t' w] & <- & I2). cbn [fst] in *. apply INl in I1 as (p & -> & R1 & _), I2 as (q & -> & R2 & _).
      rewrite (SD p v R1), (SD q w R2) in E. congruence. }
    clear -NDl INJ. induction (map fst l) as [|s r IH]; cbn; [constructor|]. inversion NDl; subst. constructor; [|apply IH; auto; intros; apply INJ; try right; auto].
    intros I. apply in_map_iff in I as (t & E & I). assert (t = s) by (apply INJ; [right; auto|left; auto|auto]). subst. contradiction. }
  unfold UnFlatten. cbn [alloc]. set (h1 := snd (alloc h)). set (b := hnext h) in *.
  assert (EB : hcell h1 b = []) by apply alloc_new.
  destruct (putAll_ok (paths l) h1 b [] h1) as (h' & E & B).
  - intros p v I. apply INp in I as [R Lv]. split; [eapply reads_ne; eauto|]. split; [eapply reads_free; eauto|]. split; [auto|]. intros s ->. apply (ne_strings _ _ N _ _ R).
  - rewrite app_nil_r. intros p v q w I1 I2 [t ->]. apply INp in I1 as [R1 L1], I2 as [R2 L2]. destruct t as [|k t].
    + rewrite app_nil_r in *. split; auto. eapply reads_fun; eauto.
    + destruct (reads_through _ _ _ _ _ _ (reads_ne _ _ _ _ R1) R2) as [c Rc]. pose proof (reads_fun _ _ _ _ _ R1 Rc) as X. destruct (L1 c X).
  - rewrite app_nil_r. exact NDp.
  - constructor; auto.
    + apply empty_nested; [exact EB|cbn; unfold b; lia].
    + apply uniqueKeys_alloc; auto.
    + intros p c [[_ ->]|R]; [auto|destruct (empty_reads _ _ _ _ EB R)].
    + intros p v _. split; [intros R; destruct (empty_reads _ _ _ _ EB R)|intros []].
    + intros p _. split; [intros [c R]; destruct (empty_reads _ _ _ _ EB R)|intros (q & v & [] & _)].
  - rewrite EL in E. exists b, h'. change (putAllDots (mkHeap (S b) (fun b0 => if Nat.eqb b b0 then [] else hcell h b0)) b l) with (putAllDots h1 b l). rewrite E. split; [reflexivity|]. split; [reflexivity|]. destruct B as [B1 B2 B3 B4 B5 B6 B7].
    rewrite app_nil_r in *. assert (IR : forall p v, In (p, v) (rev (paths l)) <-> reads h a p v /\ leaf v) by (intros p v; rewrite <- in_rev; apply INp).
    split; [split|].
    + intros p v Lv. rewrite B6, IR by auto. tauto.
    + intros p. destruct p as [|k p]; [split; intros [c R]; destruct (reads_nil _ _ _ R)|]. rewrite B7 by discriminate. split.
      * intros (q & v & I & [t ->] & NE). apply IR in I as [R Lv]. destruct t as [|k2 t]; [rewrite app_nil_r in NE; congruence|]. apply (reads_through h (k :: p) a k2 t v); [discriminate|exact R].
      * intros [c R]. destruct (leaf_below n h c) as (q & v & Rq & Lv).
        -- intros q v Rq. assert (length ((k :: p) ++ q) <= n) by (apply (D _ v); eapply reads_app; [right; exact R|exact Rq]). rewrite app_length in H. lia.
        -- intros q d Rq. apply (FU ((k :: p) ++ q)). eapply reads_app; [right; exact R|exact Rq].
        -- apply (FU _ _ R).
        -- exists ((k :: p) ++ q), v. split; [apply IR; split; auto; eapply reads_app; [right; exact R|exact Rq]|]. split; [exists q; reflexivity|].
           intros E2. pose proof (reads_ne _ _ _ _ Rq) as NQ. apply NQ. apply (app_inv_head (k :: p)). rewrite app_nil_r. auto.
    + split; [exact B2|]. split; [exact B1|]. split.
      * intros c C. rewrite B4; [apply alloc_old; auto|cbn; lia|unfold b; lia].
      * intros p c R. apply B5 in R as [->|R]; [unfold b; lia|cbn in R; unfold b in *; lia].
Qed.

(** UnFlatten(Flatten(m)) holds the same values as m at the same paths, for every order in which the flat map is visited; m is not
    changed and shares nothing with the result. *)
Theorem C29_round_trip h a n : plainMap h a n -> exists fl, Flatten (S n) h a = Ok fl /\
  forall l, Permutation l fl -> exists b h', UnFlatten h l = Ok (b, h') /\ sameMap h a h' b /\ (forall p v, reads h' a p v <-> reads h a p v) /\ disjoint h' b a.
Proof.
  intros PM. pose proof PM as [U N G NS D FU]. destruct (flatten_ok n h a N G NS D) as (fl & E & ND & IS). exists fl. split; [exact E|].
  intros l PL. destruct (unflatten_ok h a n fl l PM IS ND PL) as (b & h' & E' & EB & SM & _ & _ & FR & RB). exists b, h'. split; [exact E'|]. split; [exact SM|].
  assert (FA : forall q c, reach h a q c -> hcell h' c = hcell h c) by (intros q c R; apply FR, (ne_closed _ _ N _ _ R)).
  split; [intros p v; apply reads_frame; auto|]. intros p q c R1 R2. apply RB in R1. apply (reach_frame h h' a q c FA) in R2. apply (ne_closed _ _ N) in R2. lia.
Qed.
Print Assumptions C29_round_trip.

(** The flat map itself: exactly the leaves, under their dotted keys, each once. *)
Theorem C29_flatten h a n : plainMap h a n -> exists fl, Flatten (S n) h a = Ok fl /\ NoDup (map fst fl) /\
  forall s v, In (s, v) fl <-> exists p, s = dots p /\ reads h a p v /\ leaf v.
Proof.
  intros [U N G NS D FU]. destruct (flatten_ok n h a N G NS D) as (fl & E & ND & IS). exists fl. split; [exact E|]. split; [exact ND|].
  intros s v. rewrite <- IS. split; [apply In_lookup; auto|apply lookup_In].
Qed.
Print Assumptions C29_flatten.

(** Flattening the rebuilt map gives the flat map again, in some order. *)
Theorem C29_flatten_again h a n fl l b h' : plainMap h a n -> Flatten (S n) h a = Ok fl -> Permutation l fl -> UnFlatten h l = Ok (b, h') ->
  exists fl', Flatten (S n) h' b = Ok fl' /\ Permutation fl' fl.
Proof.
  intros PM E PL EU. pose proof PM as [U N G NS D FU]. destruct (flatten_ok n h a N G NS D) as (fl0 & E0 & ND & IS). rewrite E0 in E. injection E as ->.
  destruct (unflatten_ok h a n fl l PM IS ND PL) as (b' & h2 & E' & _ & [SL SM] & U' & N' & _ & _). rewrite E' in EU. injection EU as -> ->.
  assert (ANY : forall p v, reads h' b p v -> exists w, reads h a p w).
  { intros p v R. destruct (leaf_dec v) as [Lv|[c ->]]; [exists v; apply SL; auto|]. destruct (proj1 (SM p)) as [x X]; eauto. }
  destruct (flatten_ok n h' b) as (fl' & E2 & ND' & IS').
  - exact N'.
  - intros p c R. split; [apply U'|]. intros k K. apply in_map_iff in K as ([k' u] & Ek & K). cbn in Ek. subst k'.
    assert (L : reads h' c [k] u) by (constructor; apply In_lookup; auto; apply U').
    assert (R2 : reads h' b (p ++ [k]) u) by (eapply reads_app; eauto). destruct (ANY _ _ R2) as [w W]. apply reads_free in W; auto. apply Forall_app in W as [_ W]. inversion W; auto.
  - intros p s R. apply (NS p s). apply SL; [discriminate|exact R].
  - intros p v R. destruct (ANY _ _ R) as [w W]. apply (D _ _ W).
  - exists fl'. split; [exact E2|]. apply NoDup_Permutation.
    + apply NoDup_map_inv in ND'. exact ND'.
    + apply NoDup_map_inv in ND. exact ND.
    + intros [s v]. assert (Q : lookup s fl' = Some v <-> lookup s fl = Some v).
      { rewrite IS, IS'. split; intros (p & Es & R & Lv); exists p; split; auto; split; auto; apply SL; auto. }
      split; intros I; apply lookup_In, Q, In_lookup; auto.
Qed.
Print Assumptions C29_flatten_again.

(** The result does not depend on the orders in which Go visits the maps: the same map with its entries in another order, flattened and
    rebuilt in any order, gives the same values at the same paths. *)
Theorem C29_order h1 a1 n1 h2 a2 n2 fl1 fl2 l1 l2 b1 b2 k1 k2 : plainMap h1 a1 n1 -> plainMap h2 a2 n2 -> sameMap h1 a1 h2 a2 ->
  Flatten (S n1) h1 a1 = Ok fl1 -> Flatten (S n2) h2 a2 = Ok fl2 -> Permutation l1 fl1 -> Permutation l2 fl2 ->
  UnFlatten h1 l1 = Ok (b1, k1) -> UnFlatten h2 l2 = Ok (b2, k2) -> sameMap k1 b1 k2 b2.
Proof.
  intros P1 P2 [S1 S2] E1 E2 PL1 PL2 U1 U2. destruct (C29_round_trip h1 a1 n1 P1) as (f1 & F1 & R1). destruct (C29_round_trip h2 a2 n2 P2) as (f2 & F2 & R2).
  rewrite F1 in E1. injection E1 as ->. rewrite F2 in E2. injection E2 as ->. destruct (R1 l1 PL1) as (b & h & V1 & [A1 A2] & _). rewrite V1 in U1. injection U1 as -> ->.
  destruct (R2 l2 PL2) as (b & h & V2 & [B1 B2] & _). rewrite V2 in U2. injection U2 as -> ->. split.
  - intros p v Lv. rewrite B1, S1, A1 by auto. reflexivity.
  - intros p. rewrite B2, S2, A2. reflexivity.
Qed.
Print Assumptions C29_order.

(** *** lists *)
(** what a flat map lists for the entries [es]: the values under their keys, those of maps and of lists (counted from 0) under a longer key; a list in a list is a value *)
Inductive flatAt (h : heap) : list (string * val) -> list string -> val -> Prop :=
| flat_value es k v : In (k, v) es -> leaf v -> (forall l, v <> VSlice l) -> flatAt h es [k] v
| flat_nested es k c p w : In (k, VMap c) es -> flatAt h (hcell h c) p w -> flatAt h es (k :: p) w
| flat_item es k l i v : In (k, VSlice l) es -> nth_error l i = Some v -> leaf v -> flatAt h es [k; natString i] v
| flat_item_map es k l i c p w : In (k, VSlice l) es -> nth_error l i = Some (VMap c) -> flatAt h (hcell h c) p w -> flatAt h es (k :: natString i :: p) w.
(** distinct keys without dots, no maps of texts, at most [n] levels *)
Definition noStr (v : val) : Prop := forall l, v <> VStrMap l.
Fixpoint levels (n : nat) (h : heap) (es : list (string * val)) : Prop :=
  match n with
  | O => False
  | S m => NoDup (map fst es) /\ forall k v, In (k, v) es -> dotFree k = true /\ noStr v /\
             match v with VMap c => levels m h (hcell h c) | VSlice l => forall x, In x l -> noStr x /\ forall c, x = VMap c -> levels m h (hcell h c) | _ => True end
  end.
Lemma dotFree_nat n : dotFree (natString n) = true.
Proof.
  unfold natString. assert (D : forall u, dotFree (DecimalString.NilEmpty.string_of_uint u) = true) by (induction u; cbn in *; auto).
  destruct (Nat.to_uint n) eqn:E; [reflexivity|..]; unfold NilZero.string_of_uint; rewrite <- E; destruct (Nat.to_uint n); try discriminate; apply D.
Qed.
Lemma natString_inj i j : natString i = natString j -> i = j.
Proof.
  unfold natString. intros E. apply (f_equal NilZero.uint_of_string) in E. assert (NN : forall n, Nat.to_uint n <> Nil) by (intros n Z; pose proof (DecimalNat.Unsigned.of_to n) as O; rewrite Z in O; cbn in O; subst n; discriminate Z). rewrite !NilZero.usu in E by apply NN. injection E as E. apply DecimalNat.Unsigned.to_uint_inj. exact E.
Qed.
Lemma flatAt_ne h es p v : flatAt h es p v -> p <> []. Proof. intros H. destruct H; discriminate. Qed.
Lemma flatAt_free n : forall h es p v, levels n h es -> flatAt h es p v -> allFree p.
Proof.
  induction n as [|m IH]; intros h es p v [] F. destruct F as [es k v I|es k c p w I F|es k l i v I|es k l i c p w I E F]; destruct (H0 _ _ I) as (D & _ & S).
  - repeat constructor. exact D.
  - constructor; [exact D|]. eapply IH; eauto.
  - constructor; [exact D|]. repeat constructor. apply dotFree_nat.
  - constructor; [exact D|]. constructor; [apply dotFree_nat|]. destruct (S (VMap c)) as [_ Sc]; [eapply nth_error_In; eauto|]. eapply IH; [exact (Sc c eq_refl)|exact F].
Qed.
Lemma flatAt_key h es p w : flatAt h es p w -> exists k v, In (k, v) es /\ exists q, p = k :: q.
Proof. intros F. destruct F as [es k v I|es k c p w I F|es k l i v I|es k l i c p w I E F]; eauto 8. Qed.

Lemma joined (a b c : string) : ((a ++ b) ++ c = a ++ (b ++ c))%string.
Proof. induction a as [|x a IH]; cbn; [reflexivity|]. rewrite IH. reflexivity. Qed.
Lemma in_unique (es : list (string * val)) k v w : NoDup (map fst es) -> In (k, v) es -> In (k, w) es -> v = w.
Proof. intros ND I1 I2. apply (In_lookup k v es ND) in I1. apply (In_lookup k w es ND) in I2. congruence. Qed.
Lemma flat_ok n : forall h a, levels n h (hcell h a) ->
  exists fl, Flatten n h a = Ok fl /\ NoDup (map fst fl) /\ forall s v, lookup s fl = Some v <-> exists p, s = dots p /\ flatAt h (hcell h a) p v.
Proof.
  induction n as [|m IH]; intros h a LV; [destruct LV|]. pose proof LV as [ND AL].
  assert (FREE : forall p w, flatAt h (hcell h a) p w -> allFree p) by (intros p w; apply (flatAt_free (S m)); exact LV).
  cbn [Flatten].
  set (slice := fix slice (k : string) (i : nat) (items : list val) (mp : list (string * val)) : res (list (string * val)) :=
        match items with
        | [] => Ok mp
        | item :: r => match toDyn h item with
                       | Some (m0, h1) => bind (Flatten m h1 m0) (fun sub => slice k (S i) r (fold_left (fun mp p => set ((k ++ "." ++ natString i) ++ "." ++ fst p)%string (snd p) mp) sub mp))
                       | None => slice k (S i) r (set (k ++ "." ++ natString i)%string item mp)
                       end
        end).
  match goal with |- exists fl, ?f (hcell h a) [] = Ok fl /\ _ => set (loop := f) end.
  (* the items of one list *)
  assert (SL : forall k all, In (k, VSlice all) (hcell h a) -> forall items done mp0 mp, all = done ++ items -> NoDup (map fst mp) ->
    (forall s w, lookup s mp0 = Some w -> forall q w', flatAt h (hcell h a) (k :: q) w' -> s <> dots (k :: q)) ->
    (forall s w, lookup s mp = Some w <-> lookup s mp0 = Some w \/ exists j q, j < length done /\ s = dots (k :: natString j :: q) /\ flatAt h (hcell h a) (k :: natString j :: q) w) ->
    exists mp', slice k (length done) items mp = Ok mp' /\ NoDup (map fst mp') /\
      forall s w, lookup s mp' = Some w <-> lookup s mp0 = Some w \/ exists q, s = dots (k :: q) /\ flatAt h (hcell h a) (k :: q) w).
  { intros k all IK. destruct (AL _ _ IK) as (DK & _ & SK). induction items as [|x r IHr]; intros done mp0 mp EA NDm NEW IV.
    - rewrite app_nil_r in EA. subst done. exists mp. split; [reflexivity|]. split; [exact NDm|]. intros s w. rewrite IV. split.
      + intros [H|(j & q & _ & -> & F)]; [left; exact H|right; exists (natString j :: q); auto].
      + intros [H|(q & -> & F)]; [left; exact H|]. right.
        assert (exists j q', j < length all /\ q = natString j :: q') as (j & q' & Hj & ->).
        { inversion F as [? ? ? I L NS|? ? c ? ? I F'|? ? l i ? I E|? ? l i c ? ? I E F']; subst.
          - destruct (NS all). exact (in_unique _ _ _ _ ND I IK).
          - pose proof (in_unique _ _ _ _ ND I IK). discriminate.
          - pose proof (in_unique _ _ _ _ ND I IK) as Q. injection Q as ->. exists i, []. split; [apply nth_error_Some; congruence|reflexivity].
          - pose proof (in_unique _ _ _ _ ND I IK) as Q. injection Q as ->. exists i, p. split; [apply nth_error_Some; congruence|reflexivity]. }
        exists j, q'. auto.
    - set (i := length done). assert (EX : nth_error all i = Some x) by (subst all; unfold i; rewrite nth_error_app2 by lia; rewrite Nat.sub_diag; reflexivity).
      destruct (SK x) as [NSx Sx]; [eapply nth_error_In; eauto|]. cbn [slice].
      assert (ITEM : forall p w, flatAt h (hcell h a) (k :: natString i :: p) w -> (p = [] /\ w = x /\ leaf x) \/ exists c, x = VMap c /\ flatAt h (hcell h c) p w).
      { intros p w F. inversion F as [|? ? c ? ? I F'|? ? l i0 ? I E Lx|? ? l i0 c ? ? I E F']; subst.
        - pose proof (in_unique _ _ _ _ ND I IK). discriminate.
        - pose proof (in_unique _ _ _ _ ND I IK) as Q. injection Q as ->. apply natString_inj in H1. subst i0. left. rewrite EX in E. injection E as ->. auto.
        - pose proof (in_unique _ _ _ _ ND I IK) as Q. injection Q as ->. apply natString_inj in H1. subst i0. right. exists c. rewrite EX in E. injection E as ->. auto. }
      assert (APP : all = (done ++ [x]) ++ r) by (rewrite <- app_assoc; exact EA). assert (LEN : S i = length (done ++ [x])) by (rewrite app_length; cbn; unfold i; lia).
      assert (LT : forall j, j < length (done ++ [x]) <-> j < i \/ j = i) by (intros j; rewrite <- LEN; lia).
      assert (KEY : forall j q w, flatAt h (hcell h a) (k :: natString j :: q) w -> forall p w', flatAt h (hcell h a) (k :: natString i :: p) w' -> dots (k :: natString j :: q) = dots (k :: natString i :: p) -> j = i).
      { intros j q w F p w' F' E. apply dots_inj in E; try discriminate; [|eapply FREE; eauto|eapply FREE; eauto]. injection E as E _. apply natString_inj. exact E. }
      destruct (leaf_dec x) as [Lx|[c ->]].
      + assert (toDyn h x = None) as -> by (destruct x; try reflexivity; [destruct (Lx a0 eq_refl)|destruct (NSx l eq_refl)]).
        assert (FX : flatAt h (hcell h a) [k; natString i] x) by (eapply flat_item; eauto). rewrite LEN. apply (IHr (done ++ [x]) mp0); [exact APP|apply set_NoDup; exact NDm|exact NEW|].
        intros s w. rewrite lookup_set_iff, IV. change (k ++ "." ++ natString i)%string with (dots [k; natString i]). split.
        * intros [[-> ->]|[_ [H|(j & q & Hj & X)]]]; [right; exists i, []; split; [apply LT; auto|auto]|left; exact H|right; exists j, q; split; [apply LT; auto|exact X]].
        * intros [H|(j & q & Hj & -> & F)]; [right; split; [apply (NEW s w H _ _ FX)|left; exact H]|]. apply LT in Hj as [Hj| ->].
          -- right. split; [|right; exists j, q; auto]. intros E. pose proof (KEY j q w F [] x FX E). fold i in Hj. lia.
          -- left. destruct (ITEM _ _ F) as [(-> & -> & _)|(c & -> & _)]; [auto|destruct (Lx c eq_refl)].
      + cbn [toDyn]. destruct (IH h c (Sx c eq_refl)) as (sub & ES & NDs & IS). rewrite ES. cbn [bind]. rewrite LEN. fold (under (k ++ "." ++ natString i)%string sub mp). apply (IHr (done ++ [VMap c]) mp0); [exact APP|apply under_NoDup; exact NDm|exact NEW|].
        assert (DC : forall q w, flatAt h (hcell h c) q w -> ((k ++ "." ++ natString i) ++ "." ++ dots q)%string = dots (k :: natString i :: q)).
        { intros q w F. destruct q as [|k2 q]; [destruct (flatAt_ne _ _ _ _ F eq_refl)|]. rewrite !dots_cons. rewrite !joined. reflexivity. }
        intros s w. rewrite under_iff by exact NDs. rewrite IV. split.
        * intros [(t & -> & I)|[_ [H|(j & q & Hj & X)]]]; [|left; exact H|right; exists j, q; split; [apply LT; auto|exact X]].
          apply (In_lookup t w sub NDs) in I. apply IS in I as (q & -> & F). right. exists i, q. split; [apply LT; auto|]. split; [eapply DC; eauto|eapply flat_item_map; eauto].
        * intros [H|(j & q & Hj & -> & F)].
          -- right. split; [|left; exact H]. intros t I. apply in_map_iff in I as ([t' u] & Et & I). cbn in Et. subst t'. apply (In_lookup t u sub NDs) in I. apply IS in I as (q & -> & F). rewrite (DC q u F). apply (NEW s w H _ u). eapply flat_item_map; eauto.
          -- apply LT in Hj as [Hj| ->].
             ++ right. split; [|right; exists j, q; auto]. intros t I E. apply in_map_iff in I as ([t' u] & Et & I). cbn in Et. subst t'. apply (In_lookup t u sub NDs) in I. apply IS in I as (q' & -> & F'). rewrite (DC q' u F') in E.
                assert (FX : flatAt h (hcell h a) (k :: natString i :: q') u) by (eapply flat_item_map; eauto). pose proof (KEY j q w F q' u FX E). fold i in Hj. lia.
             ++ left. destruct (ITEM _ _ F) as [(_ & _ & Lx)|(c' & Ec & F')]; [destruct (Lx c eq_refl)|]. injection Ec as <-. exists (dots q). split; [symmetry; eapply DC; eauto|]. apply lookup_In, IS. eauto. }
  assert (H : forall l P mp, (forall k v, In (k, v) l -> In (k, v) (hcell h a)) -> (forall k, In k (map fst l) -> ~ In k P) -> NoDup (map fst l) ->
    NoDup (map fst mp) -> (forall s v, lookup s mp = Some v <-> exists k p, In k P /\ s = dots (k :: p) /\ flatAt h (hcell h a) (k :: p) v) ->
    exists fl, loop l mp = Ok fl /\ NoDup (map fst fl) /\
      forall s v, lookup s fl = Some v <-> exists k p, (In k P \/ In k (map fst l)) /\ s = dots (k :: p) /\ flatAt h (hcell h a) (k :: p) v).
  { induction l as [|[k v] r IHl]; intros P mp ALL NP NDl NDm IV.
    - exists mp. split; [reflexivity|]. split; [auto|]. intros s v. rewrite IV. cbn. split; intros (k & p & X); exists k, p; tauto.
    - assert (IK : In (k, v) (hcell h a)) by (apply ALL; left; auto). destruct (AL _ _ IK) as (DK & NSv & SK). assert (LK : lookup k (hcell h a) = Some v) by (apply In_lookup; auto).
      assert (NKP : ~ In k P) by (apply NP; left; auto).
      assert (NEW : forall s w, lookup s mp = Some w -> forall q w', flatAt h (hcell h a) (k :: q) w' -> s <> dots (k :: q)).
      { intros s w L q w' F E. apply IV in L as (k' & p & I & -> & F'). apply dots_inj in E; try discriminate; [|eapply FREE; eauto|eapply FREE; eauto]. injection E as -> _. contradiction. }
      assert (SETS : exists mp', loop ((k, v) :: r) mp = loop r mp' /\ NoDup (map fst mp') /\ forall s w, lookup s mp' = Some w <-> lookup s mp = Some w \/ exists q, s = dots (k :: q) /\ flatAt h (hcell h a) (k :: q) w).
      { unfold loop at 1. unfold GetDynMap. rewrite (Get_plain h a k DK), LK. fold loop.
        destruct (leaf_dec v) as [Lv|[c ->]].
        - assert (toDyn h v = None) as -> by (destruct v; try reflexivity; [destruct (Lv a0 eq_refl)|destruct (NSv l eq_refl)]).
          assert (CS : (exists l, v = VSlice l) \/ forall l, v <> VSlice l) by (destruct v; try (right; discriminate); left; eauto). destruct CS as [[l ->]|NSl].
          + destruct (SL k l IK l [] mp mp eq_refl NDm NEW) as (mp' & E & NDm' & IV').
            { intros s w. cbn [length]. split; [auto|intros [X|(j & q & Hj & _)]; [exact X|lia]]. }
            exists mp'. cbn [length] in E. fold slice. rewrite E. cbn [bind]. auto.
          + assert (FK : flatAt h (hcell h a) [k] v) by (eapply flat_value; eauto).
            exists (set k v mp). split; [destruct v; try reflexivity; destruct (NSl l eq_refl)|]. split; [apply set_NoDup; auto|]. intros s w. rewrite lookup_set_iff. split.
            * intros [[-> ->]|[_ X]]; [right; exists []; split; [reflexivity|exact FK]|left; exact X].
            * intros [X|(q & -> & F)]; [right; split; [apply (NEW s w X [] v FK)|exact X]|]. left.
              inversion F as [? ? ? I L NS|? ? c ? ? I F'|? ? l i ? I E|? ? l i c ? ? I E F']; subst; pose proof (in_unique _ _ _ _ ND I IK) as Q; subst; auto; [destruct (Lv c eq_refl)|destruct (NSl l eq_refl)|destruct (NSl l eq_refl)].
        - cbn [toDyn]. destruct (IH h c SK) as (sub & E & NDs & IS). exists (under k sub mp). rewrite E. cbn [bind]. split; [reflexivity|]. split; [apply under_NoDup; auto|].
          assert (DC : forall q w, flatAt h (hcell h c) q w -> (k ++ "." ++ dots q)%string = dots (k :: q)) by (intros q w F; destruct q as [|k2 q]; [destruct (flatAt_ne _ _ _ _ F eq_refl)|reflexivity]).
          intros s w. rewrite under_iff by exact NDs. split.
          + intros [(t & -> & I)|[_ X]]; [|left; exact X]. apply (In_lookup t w sub NDs) in I. apply IS in I as (q & -> & F). right. exists q. split; [eapply DC; eauto|eapply flat_nested; eauto].
          + intros [X|(q & -> & F)].
            * right. split; [|exact X]. intros t I. apply in_map_iff in I as ([t' u] & Et & I). cbn in Et. subst t'. apply (In_lookup t u sub NDs) in I. apply IS in I as (q & -> & F). rewrite (DC q u F). apply (NEW s w X q u). eapply flat_nested; eauto.
            * left. inversion F as [? ? ? I L NS|? ? c' ? ? I F'|? ? l i ? I E'|? ? l i c' ? ? I E' F']; subst; pose proof (in_unique _ _ _ _ ND I IK) as Q; try discriminate; subst; [destruct (L c eq_refl)|]. injection Q as ->.
              exists (dots q). split; [symmetry; eapply DC; eauto|]. apply lookup_In, IS. eauto. }
      destruct SETS as (mp' & E & NDm' & IV'). rewrite E. inversion NDl as [|? ? N1 N2]; subst.
      destruct (IHl (k :: P) mp') as (fl & E' & NDf & F).
      + intros k' v' I. apply ALL. right. auto.
      + intros k' I [<-|I2]; [contradiction|]. apply (NP k'); [right; auto|exact I2].
      + exact N2.
      + exact NDm'.
      + intros s w. rewrite IV', IV. split.
        * intros [(k' & p & I & X)|(q & X)]; [exists k', p; split; [right; auto|exact X]|exists k, q; split; [left; auto|exact X]].
        * intros (k' & p & [<-|I] & X); [right; exists p; exact X|left; exists k', p; auto].
      + exists fl. split; [exact E'|]. split; [exact NDf|]. intros s w. rewrite F. cbn [map fst In]. split; intros (k' & p & I & X); exists k', p; split; try exact X; tauto. }
  destruct (H (hcell h a) [] []) as (fl & E & NDf & F); auto.
  - constructor.
  - intros s v. cbn. split; [discriminate|intros (k & p & [] & _)].
  - exists fl. split; [exact E|]. split; [exact NDf|]. intros s v. rewrite F. split.
    + intros (k & p & _ & -> & X). exists (k :: p). auto.
    + intros (p & -> & X). destruct (flatAt_key _ _ _ _ X) as (k & u & I & q & ->). exists k, q. split; [|auto]. right. apply in_map_iff. exists (k, u). auto.
Qed.
(** The flat map of maps with lists: exactly those values, each once. *)
Theorem C29_lists h a n : levels n h (hcell h a) -> exists fl, Flatten n h a = Ok fl /\ NoDup (map fst fl) /\
  forall s v, In (s, v) fl <-> exists p, s = dots p /\ flatAt h (hcell h a) p v.
Proof.
  intros LV. destruct (flat_ok n h a LV) as (fl & E & ND & IS). exists fl. split; [exact E|]. split; [exact ND|].
  intros s v. rewrite <- IS. split; [apply In_lookup; auto|apply lookup_In].
Qed.
Print Assumptions C29_lists.
(** {"cuts": [1, {"d": 2}, [3]], "name": "box"} *)
Definition cuts : heap := mkHeap 2 (fun a => match a with 0 => [("cuts", VSlice [VInt 1; VMap 1; VSlice [VInt 3]]); ("name", VStr "box")] | 1 => [("d", VInt 2)] | _ => [] end).
Example C29_lists_example : levels 2 cuts (hcell cuts 0) /\ Flatten 2 cuts 0 = Ok [("cuts.0", VInt 1); ("cuts.1.d", VInt 2); ("cuts.2", VSlice [VInt 3]); ("name", VStr "box")].
Proof.
  split; [|reflexivity]. split; [cbn; repeat constructor; cbn; intuition discriminate|]. intros k v [E|[E|[]]]; injection E as <- <-; (split; [reflexivity|]); (split; [discriminate|]); [|exact I].
  intros x [<-|[<-|[<-|[]]]]; (split; [discriminate|]); intros c E; try discriminate. injection E as <-. split; [repeat constructor; intros []|]. intros k v [E|[]]. injection E as <- <-. repeat split; discriminate.
Qed.
(** read back, a list is a map with the numbers as keys *)
Example C29_lists_back : match Flatten 2 cuts 0 with Ok fl => match UnFlatten cuts fl with Ok (b, h) => map (Get h b) ["cuts.0"; "cuts.1.d"; "cuts.2"; "cuts"] = [Some (VInt 1); Some (VInt 2); Some (VSlice [VInt 3]); Some (VMap 3)] | _ => False end | _ => False end.
Proof. reflexivity. Qed.

(** *** a concrete map: {"size": {"w": 3, "cut": {"d": 1}}, "name": "box"} *)
Definition part : heap := mkHeap 3 (fun a => match a with 0 => [("size", VMap 1); ("name", VStr "box")] | 1 => [("w", VInt 3); ("cut", VMap 2)] | 2 => [("d", VInt 1)] | _ => [] end).
Example part_plain : plainMap part 0 3.
Proof.
  constructor; [|apply (okNested_ok 4); reflexivity|apply (okKeys_ok 4); reflexivity| |apply (okDeep_ok 4); reflexivity|].
  - intros c. destruct c as [|[|[|c]]]; cbn; apply distinctS_ok; reflexivity.
  - intros p l R. apply (listing_all 4 part 0 _ eq_refl) in R. cbn in R. repeat destruct R as [R|R]; try discriminate; destruct R.
  - intros p c R. apply (listing_all 4 part 0 _ eq_refl) in R. cbn in R. repeat destruct R as [R|R]; try discriminate; try (injection R as <- <-; discriminate); destruct R.
Qed.
Definition rebuilt (l : list (string * val)) (key : string) : option val := match UnFlatten part l with Ok (b, h) => Get h b key | _ => None end.
Example C29_example : Flatten 4 part 0 = Ok [("size.w", VInt 3); ("size.cut.d", VInt 1); ("name", VStr "box")] /\
  map (rebuilt [("name", VStr "box"); ("size.cut.d", VInt 1); ("size.w", VInt 3)]) ["size.w"; "size.cut.d"; "name"; "size.d"] = [Some (VInt 3); Some (VInt 1); Some (VStr "box"); None].
Proof. split; reflexivity. Qed.
