(** C81: a map written as a URL query reads back as the same map of texts. *)
From Coq Require Import String List ZArith Bool Ascii Arith Lia Permutation.
From Verif Require Import Num DynModel Url DynProofs Prop_C27 MergeProofs DynCheck FlattenProofs Prop_C29.
Import ListNotations.
Local Open Scope string_scope.
Local Open Scope list_scope.

(** keys without dots and brackets *)
Fixpoint bracketFree (s : string) : bool := match s with EmptyString => true | String c r => negb (Ascii.eqb c "["%char) && negb (Ascii.eqb c "]"%char) && bracketFree r end.
Definition bracketKeys (h : heap) (a : nat) : Prop := forall p v, reads h a p v -> Forall (fun k => bracketFree k = true) p.
(** the field for a path: size[w][x] *)
Fixpoint brackets (p : list string) : string := match p with [] => "" | k :: r => ("[" ++ k ++ "]" ++ brackets r)%string end.
Definition field (p : list string) : string := match p with [] => "" | k :: r => (k ++ brackets r)%string end.

Lemma fieldKey_app s t : fieldKey (s ++ t)%string = (fieldKey s ++ fieldKey t)%string.
Proof. induction s as [|c s IH]; [reflexivity|]. cbn [append fieldKey]. destruct (Ascii.eqb c "["%char); [cbn [append]; rewrite IH; reflexivity|]. destruct (Ascii.eqb c "]"%char); [exact IH|cbn [append]; rewrite IH; reflexivity]. Qed.
Lemma fieldKey_free k : bracketFree k = true -> fieldKey k = k.
Proof. induction k as [|c k IH]; [reflexivity|]. cbn [bracketFree fieldKey]. intros H. apply andb_prop in H as [H H2]. apply andb_prop in H as [H1 H3]. apply negb_true_iff in H1, H3. rewrite H1, H3, IH by auto. reflexivity. Qed.
Lemma append_assoc_s (a b c : string) : ((a ++ b) ++ c = a ++ (b ++ c))%string.
Proof. induction a as [|x a IH]; [reflexivity|]. cbn [append]. rewrite IH. reflexivity. Qed.
Lemma append_nil_s (a : string) : (a ++ "" = a)%string.
Proof. induction a as [|x a IH]; [reflexivity|]. cbn [append]. rewrite IH. reflexivity. Qed.
Lemma fieldKey_brackets r : Forall (fun k => bracketFree k = true) r -> fieldKey (brackets r) = match r with [] => "" | _ => ("." ++ dots r)%string end.
Proof.
  induction r as [|k r IH]; intros F; [reflexivity|]. inversion F; subst. cbn [brackets]. rewrite !fieldKey_app, (fieldKey_free k) by auto. rewrite IH by auto. cbn [fieldKey Ascii.eqb append]. cbn.
  destruct r as [|k2 r]; [rewrite append_nil_s; reflexivity|]. reflexivity.
Qed.
Lemma fieldKey_field p : Forall (fun k => bracketFree k = true) p -> fieldKey (field p) = dots p.
Proof.
  destruct p as [|k r]; intros F; [reflexivity|]. inversion F; subst. cbn [field]. rewrite fieldKey_app, fieldKey_free, fieldKey_brackets by auto.
  destruct r; [apply append_nil_s|reflexivity].
Qed.

(** *** the leaves of a map, in the order in which they are visited *)
Fixpoint leaves (n : nat) (h : heap) (l : list (string * val)) : list (list string * val) :=
  match n with
  | O => []
  | S m => flat_map (fun kv => match snd kv with VMap c => map (fun pv => (fst kv :: fst pv, snd pv)) (leaves m h (hcell h c)) | _ => [([fst kv], snd kv)] end) l
  end.
Lemma leaves_ok n : forall h a, (forall p c, reach h a p c -> NoDup (map fst (hcell h c))) -> deep h a n ->
  (forall p v, In (p, v) (leaves n h (hcell h a)) <-> reads h a p v /\ leaf v) /\ NoDup (map fst (leaves n h (hcell h a))).
Proof.
  induction n as [|m IH]; intros h a ND D.
  - cbn. split; [|constructor]. intros p v. split; [intros []|]. intros [R _]. pose proof (D p v R). destruct p; [destruct (reads_nil _ _ _ R)|cbn in H; lia].
  - pose proof (ND [] a (reach_nil h a)) as N1.
    assert (SUB : forall k c, lookup k (hcell h a) = Some (VMap c) -> (forall p v, In (p, v) (leaves m h (hcell h c)) <-> reads h c p v /\ leaf v) /\ NoDup (map fst (leaves m h (hcell h c)))).
    { intros k c L. apply IH.
      - intros p d R. apply (ND (k :: p)). apply reach_cons. eauto.
      - intros p v R. destruct p as [|k2 p]; [cbn; lia|]. assert (length (k :: k2 :: p) <= S m) by (apply (D _ v); eapply rd_more; eauto). cbn in *. lia. }
    split.
    + intros p v. cbn [leaves]. rewrite in_flat_map. split.
      * intros ([k u] & I & I2). cbn [fst snd] in I2. apply In_lookup in I; [|exact N1]. destruct (leaf_dec u) as [Lu|[c ->]].
        -- assert (E : (p, v) = ([k], u)). { destruct u; try (destruct I2 as [<-|[]]; reflexivity). destruct (Lu a0 eq_refl). }
           injection E as -> ->. split; [constructor; exact I|exact Lu].
        -- apply in_map_iff in I2 as ([q w] & E & I2). injection E as <- <-. cbn [fst snd]. apply (SUB k c I) in I2 as [R Lw]. split; [|exact Lw].
           destruct q as [|k2 q]; [destruct (reads_nil _ _ _ R)|]. eapply rd_more; eauto.
      * intros [R Lv]. destruct p as [|k p]; [destruct (reads_nil _ _ _ R)|]. apply reads_key in R as (u & L & C). exists (k, u). split; [apply lookup_In, L|]. cbn [fst snd].
        destruct C as [[-> ->]|[Hp (c & -> & R)]]; [destruct v; try (left; reflexivity); destruct (Lv a0 eq_refl)|].
        apply in_map_iff. exists (p, v). split; [reflexivity|]. apply (SUB k c L). auto.
    + cbn [leaves]. assert (IN : forall k u, In (k, u) (hcell h a) -> lookup k (hcell h a) = Some u) by (intros; apply In_lookup; auto).
      revert N1 IN SUB. generalize (hcell h a) at 1 2 5. intros l N1 IN SUB. induction l as [|[k u] r IHr]; [constructor|]. cbn [flat_map fst snd]. rewrite map_app. inversion N1; subst.
      assert (HD : forall p, In p (map fst (match u with VMap c => map (fun pv => (k :: fst pv, snd pv)) (leaves m h (hcell h c)) | _ => [([k], u)] end)) -> exists q, p = k :: q).
      { intros p I. destruct u; try (destruct I as [<-|[]]; exists []; reflexivity). rewrite map_map in I. apply in_map_iff in I as (x & <- & _). cbn. eauto. }
      assert (TL : forall p, In p (map fst (flat_map (fun kv => match snd kv with VMap c => map (fun pv => (fst kv :: fst pv, snd pv)) (leaves m h (hcell h c)) | _ => [([fst kv], snd kv)] end) r)) -> exists k' q, p = k' :: q /\ In k' (map fst r)).
      { intros p I. apply in_map_iff in I as ([q w] & <- & I). apply in_flat_map in I as ([k' u'] & I & I2). cbn [fst snd] in *. exists k'.
        assert (Ik : In k' (map fst r)) by (apply in_map_iff; exists (k', u'); auto).
        destruct u'; try (destruct I2 as [[= <- <-]|[]]; exists []; auto). apply in_map_iff in I2 as (x & [= <- <-] & _). eauto. }
      assert (DJ : forall l1 l2 : list (list string), NoDup l1 -> NoDup l2 -> (forall x, In x l1 -> ~ In x l2) -> NoDup (l1 ++ l2)).
      { intros l1 l2 A B C. induction l1 as [|x l1 IHl]; [exact B|]. inversion A; subst. cbn [app]. constructor; [|apply IHl; auto; intros y Y; apply C; right; exact Y].
        rewrite in_app_iff. intros [X|X]; [contradiction|apply (C x); [left; auto|exact X]]. }
      apply DJ.
      * destruct u; try (repeat constructor; intros []). rewrite map_map. cbn [fst]. destruct (SUB k a0 (IN k _ (or_introl eq_refl))) as [_ Q].
        rewrite <- (map_map fst (cons k)). apply FinFun.Injective_map_NoDup; [|exact Q]. intros x y E. injection E as ->. reflexivity.
      * apply IHr; auto. intros k' u' I. apply IN. right. exact I.
      * intros p I1 I2. apply HD in I1 as (q & ->). apply TL in I2 as (k' & q' & [= <- <-] & I2). contradiction.
Qed.

Section Text.
Variable show : val -> string.
Notation text := (toText show).

(** the fields are added one after the other *)
Definition addAll (pre : string) (l : list (list string * val)) (f : form) : form := fold_left (fun f pv => addField (pre ++ brackets (fst pv))%string (text (snd pv)) f) l f.
Lemma urlEncode_leaf n h f key v : leaf v -> (forall l, v <> VStrMap l) -> (forall l, v <> VSlice l) -> urlEncode show (S n) h f key v = Ok (addField key (text v) f).
Proof. intros L S1 S2. destruct v; try reflexivity; [destruct (L a eq_refl)|destruct (S1 l eq_refl)|destruct (S2 l eq_refl)]. Qed.
Lemma urlEncode_map n : forall h c f key, nested h c -> noSlices h c -> (forall p c', reach h c p c' -> NoDup (map fst (hcell h c'))) -> deep h c n ->
  urlEncode show (S n) h f key (VMap c) = Ok (addAll key (leaves n h (hcell h c)) f).
Proof.
  induction n as [|m IH]; intros h c f key N NS ND D.
  - cbn [urlEncode toDyn]. destruct (hcell h c) as [|[k v] r] eqn:E; [reflexivity|]. exfalso. assert (length [k] <= 0); [|cbn in *; lia]. apply (D [k] v). constructor. rewrite E. cbn. rewrite String.eqb_refl. reflexivity.
  - pose proof (ND [] c (reach_nil h c)) as N1. assert (IN : forall k u, In (k, u) (hcell h c) -> lookup k (hcell h c) = Some u) by (intros; apply In_lookup; auto).
    remember (S m) as sm eqn:Esm. cbn [urlEncode toDyn]. subst sm. cbn [leaves].
    revert f IN. generalize (hcell h c) at 1 3 4. intros l f IN. revert f. induction l as [|[k v] r IHr]; intros f; [reflexivity|]. cbn [flat_map fst snd].
    assert (L : lookup k (hcell h c) = Some v) by (apply IN; left; reflexivity).
    assert (E : urlEncode show (S m) h f (key ++ "[" ++ k ++ "]")%string v = Ok (addAll key (match v with VMap c => map (fun pv => (k :: fst pv, snd pv)) (leaves m h (hcell h c)) | _ => [([k], v)] end) f)).
    { destruct (leaf_dec v) as [Lv|[d ->]].
      - rewrite urlEncode_leaf; [|exact Lv|intros s ->; apply (ne_strings _ _ N [k] s); constructor; exact L|intros s ->; apply (NS [k] s); constructor; exact L].
        f_equal. unfold addAll. destruct v; try (cbn [fold_left fst snd brackets]; rewrite append_nil_s; reflexivity). destruct (Lv a eq_refl).
      - rewrite IH.
        + f_equal. unfold addAll. generalize (leaves m h (hcell h d)). clear. intros l. revert f. induction l as [|[p w] r IH]; intros f; [reflexivity|]. cbn [fold_left map fst snd brackets]. rewrite IH.
          f_equal. f_equal. rewrite !append_assoc_s. reflexivity.
        + eapply nested_sub; eauto.
        + intros p s R. apply (NS (k :: p) s). destruct p; [destruct (reads_nil _ _ _ R)|]. eapply rd_more; eauto.
        + intros p c' R. apply (ND (k :: p)). apply reach_cons. eauto.
        + intros p w R. destruct p as [|k2 p]; [cbn; lia|]. assert (length (k :: k2 :: p) <= S m) by (apply (D _ w); eapply rd_more; eauto). cbn in *. lia. }
    rewrite E. cbn [bind]. rewrite IHr by (intros k' u' I; apply IN; right; exact I). f_equal. unfold addAll. rewrite fold_left_app. reflexivity.
Qed.

Definition fieldOf (pv : list string * val) : string * list string := (field (fst pv), [text (snd pv)]).
Lemma set_new {A} k (v : A) l : ~ In k (map fst l) -> set k v l = l ++ [(k, v)].
Proof. induction l as [|[k2 v2] r IH]; intros H; [reflexivity|]. cbn [set]. destruct (String.eqb_spec k k2) as [->|]; [destruct H; left; reflexivity|]. cbn [app]. rewrite IH; [reflexivity|]. intros I. apply H. right. exact I. Qed.
Lemma lookup_none {A} k (l : list (string * A)) : ~ In k (map fst l) -> lookup k l = None.
Proof. induction l as [|[k2 v2] r IH]; intros H; [reflexivity|]. cbn [lookup]. destruct (String.eqb_spec k k2) as [->|]; [destruct H; left; reflexivity|]. apply IH. intros I. apply H. right. exact I. Qed.
Lemma add_new l : forall f, NoDup (map fst f ++ map (fun pv => field (fst pv)) l) -> fold_left (fun f pv => addField (field (fst pv)) (text (snd pv)) f) l f = f ++ map fieldOf l.
Proof.
  induction l as [|[p v] r IH]; intros f ND; [cbn; rewrite app_nil_r; reflexivity|]. cbn [fold_left map fst snd]. cbn [map fst] in ND.
  assert (NI : ~ In (field p) (map fst f)). { apply NoDup_remove_2 in ND. rewrite in_app_iff in ND. tauto. }
  unfold addField at 2. rewrite lookup_none by auto. rewrite set_new by auto. rewrite IH.
  - rewrite <- app_assoc. reflexivity.
  - rewrite map_app, <- app_assoc. exact ND.
Qed.
Lemma marshal_fold n : forall h a, nested h a -> noSlices h a -> (forall p c', reach h a p c' -> NoDup (map fst (hcell h c'))) -> deep h a n ->
  MarshalUrl show n h a = Ok (fold_left (fun f pv => addField (field (fst pv)) (text (snd pv)) f) (leaves n h (hcell h a)) []).
Proof.
  intros h a N NS ND D. unfold MarshalUrl. destruct n as [|m].
  - destruct (hcell h a) as [|[k v] r] eqn:E; [reflexivity|]. exfalso. assert (length [k] <= 0); [|cbn in *; lia]. apply (D [k] v). constructor. rewrite E. cbn. rewrite String.eqb_refl. reflexivity.
  - pose proof (ND [] a (reach_nil h a)) as N1. assert (IN : forall k u, In (k, u) (hcell h a) -> lookup k (hcell h a) = Some u) by (intros; apply In_lookup; auto).
    cbn [leaves]. revert IN. generalize (hcell h a) at 1 3 4. intros l IN. generalize (@nil (string * list string)) as f. induction l as [|[k v] r IHr]; intros f; [reflexivity|]. cbn [encodeAll flat_map fst snd].
    assert (L : lookup k (hcell h a) = Some v) by (apply IN; left; reflexivity).
    assert (E : urlEncode show (S m) h f k v = Ok (fold_left (fun f pv => addField (field (fst pv)) (text (snd pv)) f) (match v with VMap c => map (fun pv => (k :: fst pv, snd pv)) (leaves m h (hcell h c)) | _ => [([k], v)] end) f)).
    { destruct (leaf_dec v) as [Lv|[d ->]].
      - rewrite urlEncode_leaf; [|exact Lv|intros s ->; apply (ne_strings _ _ N [k] s); constructor; exact L|intros s ->; apply (NS [k] s); constructor; exact L].
        f_equal. destruct v; try (cbn [fold_left fst snd field brackets]; rewrite append_nil_s; reflexivity). destruct (Lv a0 eq_refl).
      - rewrite urlEncode_map.
        + f_equal. unfold addAll. generalize (leaves m h (hcell h d)). clear. intros l. revert f. induction l as [|[p w] r IH]; intros f; [reflexivity|]. cbn [fold_left map fst snd field]. apply IH.
        + eapply nested_sub; eauto.
        + intros p s R. apply (NS (k :: p) s). destruct p; [destruct (reads_nil _ _ _ R)|]. eapply rd_more; eauto.
        + intros p c' R. apply (ND (k :: p)). apply reach_cons. eauto.
        + intros p w R. destruct p as [|k2 p]; [cbn; lia|]. assert (length (k :: k2 :: p) <= S m) by (apply (D _ w); eapply rd_more; eauto). cbn in *. lia. }
    rewrite E. cbn [bind]. rewrite IHr by (intros k' u' I; apply IN; right; exact I). f_equal. rewrite fold_left_app. reflexivity.
Qed.

Lemma fields_distinct n h a : plainMap h a n -> bracketKeys h a -> NoDup (map (fun pv => field (fst pv)) (leaves n h (hcell h a))).
Proof.
  intros [U N G NS D FU] BK. assert (ND : forall p c, reach h a p c -> NoDup (map fst (hcell h c))) by (intros p c _; apply U). destruct (leaves_ok n h a ND D) as [IL NL].
  rewrite <- (map_map fst field).
    assert (INJ : forall x y, In x (map fst (leaves n h (hcell h a))) -> In y (map fst (leaves n h (hcell h a))) -> field x = field y -> x = y).
    { intros x y I1 I2 E. apply in_map_iff in I1 as ([x' v] & <- & I1), I2 as ([y' w] & <- & I2). cbn [fst] in *. apply IL in I1 as [R1 _], I2 as [R2 _].
      apply dots_inj; [eapply reads_ne; eauto|eapply reads_ne; eauto|eapply reads_free; eauto|eapply reads_free; eauto|]. rewrite <- !fieldKey_field by eauto. rewrite E. reflexivity. }
    revert NL INJ. generalize (map fst (leaves n h (hcell h a))). clear. induction l as [|x r IH]; intros ND INJ; [constructor|]. inversion ND; subst. cbn [map]. constructor; [|apply IH; auto; intros; apply INJ; try right; auto].
    intros I. apply in_map_iff in I as (y & E & I). assert (y = x) by (apply INJ; [right; auto|left; auto|auto]). subst. contradiction.
Qed.

(** The query holds exactly one field, with one text, for every value of the map. *)
Theorem C81_fields h a n : plainMap h a n -> bracketKeys h a -> exists f, MarshalUrl show n h a = Ok f /\ NoDup (map fst f) /\
  forall k ts, In (k, ts) f <-> exists p v, reads h a p v /\ leaf v /\ k = field p /\ ts = [text v].
Proof.
  intros [U N G NS D FU] BK. assert (ND : forall p c, reach h a p c -> NoDup (map fst (hcell h c))) by (intros p c _; apply U).
  destruct (leaves_ok n h a ND D) as [IL NL]. rewrite marshal_fold by auto.
  pose proof (fields_distinct n h a (mkPlain _ _ _ U N G NS D FU) BK) as NF.
  rewrite add_new by (cbn [map app]; exact NF). cbn [app]. exists (map fieldOf (leaves n h (hcell h a))). split; [reflexivity|]. split; [rewrite map_map; exact NF|].
  intros k ts. rewrite in_map_iff. split.
  - intros ([p v] & E & I). unfold fieldOf in E. cbn [fst snd] in E. injection E as <- <-. apply IL in I as [R Lv]. exists p, v. auto.
  - intros (p & v & R & Lv & -> & ->). exists (p, v). split; [reflexivity|]. apply IL. auto.
Qed.

(** Reading the query into a new map, the fields in any order, gives the text of every value at the path of that value, and nothing else; the written map is left
    alone and shares nothing with the new one. *)
Theorem C81_round_trip h a n : plainMap h a n -> bracketKeys h a -> exists f, MarshalUrl show n h a = Ok f /\
  forall f', Permutation f' f -> let h' := UnmarshalUrlValues (snd (alloc h)) (fst (alloc h)) f' in let b := fst (alloc h) in
    (forall p w, leaf w -> (reads h' b p w <-> exists v, reads h a p v /\ leaf v /\ w = VStr (text v))) /\
    (forall p, (exists c, reads h' b p (VMap c)) <-> (exists c, reads h a p (VMap c))) /\
    (forall p v, reads h' a p v <-> reads h a p v) /\ disjoint h' b a.
Proof.
  intros PM BK. pose proof PM as [U N G NS D FU]. assert (ND : forall p c, reach h a p c -> NoDup (map fst (hcell h c))) by (intros p c _; apply U).
  destruct (leaves_ok n h a ND D) as [IL NL]. destruct (C81_fields h a n PM BK) as (f & E & NF & IF). exists f. split; [exact E|]. intros f' PF. cbv zeta. change (fst (alloc h)) with (hnext h).
  rewrite marshal_fold in E by auto.
  assert (EF : f = map fieldOf (leaves n h (hcell h a))).
  { injection E as <-. rewrite add_new; [reflexivity|]. exact (fields_distinct n h a PM BK). }
  subst f. apply Permutation_map_inv in PF as (l & -> & PL).
  assert (INl : forall p v, In (p, v) l <-> reads h a p v /\ leaf v).
  { intros p v. rewrite <- IL. split; apply Permutation_in; [apply Permutation_sym|]; exact PL. }
  assert (NDl : NoDup (map fst l)) by (eapply Permutation_NoDup; [apply Permutation_map; exact PL|exact NL]).
  set (l2 := map (fun pv => (fst pv, VStr (text (snd pv)))) l).
  assert (INp : forall p w, In (p, w) l2 <-> exists v, reads h a p v /\ leaf v /\ w = VStr (text v)).
  { intros p w. unfold l2. rewrite in_map_iff. split; [intros ([q v] & [= <- <-] & I); apply INl in I as [R Lv]; eauto|intros (v & R & Lv & ->); exists (p, v); split; [reflexivity|apply INl; auto]]. }
  set (h1 := snd (alloc h)). set (b := hnext h) in *. assert (EB : hcell h1 b = []) by apply alloc_new.
  destruct (putAll_ok l2 h1 b [] h1) as (h' & E' & B).
  - intros p w I. apply INp in I as (v & R & Lv & ->). split; [eapply reads_ne; eauto|]. split; [eapply reads_free; eauto|]. split; [discriminate|discriminate].
  - rewrite app_nil_r. intros p v q w I1 I2 [t ->]. apply INp in I1 as (v1 & R1 & L1 & ->), I2 as (v2 & R2 & L2 & ->). destruct t as [|k t].
    + rewrite app_nil_r in *. split; auto. rewrite (reads_fun _ _ _ _ _ R1 R2). reflexivity.
    + destruct (reads_through _ _ _ _ _ _ (reads_ne _ _ _ _ R1) R2) as [c Rc]. pose proof (reads_fun _ _ _ _ _ R1 Rc) as X. destruct (L1 c X).
  - rewrite app_nil_r. unfold l2. rewrite map_map. exact NDl.
  - constructor; auto.
    + apply empty_nested; [exact EB|cbn; unfold b; lia].
    + apply uniqueKeys_alloc; auto.
    + intros p c [[_ ->]|R]; [auto|destruct (empty_reads _ _ _ _ EB R)].
    + intros p v _. split; [intros R; destruct (empty_reads _ _ _ _ EB R)|intros []].
    + intros p _. split; [intros [c R]; destruct (empty_reads _ _ _ _ EB R)|intros (q & v & [] & _)].
  - assert (EU : UnmarshalUrlValues h1 b (map fieldOf l) = h').
    { clearbody h1. clear -E' INl BK. revert h1 E'. assert (FR : forall pv, In pv l -> Forall (fun k => bracketFree k = true) (fst pv)) by (intros [p v] I; apply INl in I as [R _]; eapply BK; eauto).
      clear INl. subst l2. induction l as [|[p v] r IH]; intros h1 E'; cbn [map fst snd UnmarshalUrlValues putAllDots fieldOf] in *; [injection E' as ->; reflexivity|].
      rewrite fieldKey_field by (apply (FR (p, v)); left; reflexivity). cbn [fieldValue]. destruct (PutWithDot h1 b (dots p) (VStr (text v))); try discriminate. cbn [bind] in E'. apply IH; auto. intros pv I. apply FR. right. exact I. }
    rewrite EU. destruct B as [B1 B2 B3 B4 B5 B6 B7]. rewrite app_nil_r in *.
    assert (IR : forall p w, In (p, w) (rev l2) <-> exists v, reads h a p v /\ leaf v /\ w = VStr (text v)) by (intros p w; rewrite <- in_rev; apply INp).
    assert (FRM : forall c, c < hnext h -> hcell h' c = hcell h c). { intros c C. rewrite B4; [apply alloc_old; auto|cbn; lia|unfold b; lia]. }
    assert (FA : forall q c, reach h a q c -> hcell h' c = hcell h c) by (intros q c R; apply FRM, (ne_closed _ _ N _ _ R)).
    split; [|split; [|split]].
    + intros p w Lw. rewrite B6, IR by auto. reflexivity.
    + intros p. destruct p as [|k p]; [split; intros [c R]; destruct (reads_nil _ _ _ R)|]. rewrite B7 by discriminate. split.
      * intros (q & v & I & [t ->] & NE). apply IR in I as (v2 & R & Lv & _). destruct t as [|k2 t]; [rewrite app_nil_r in NE; congruence|]. apply (reads_through h (k :: p) a k2 t v2); [discriminate|exact R].
      * intros [c R]. destruct (leaf_below n h c) as (q & v & Rq & Lv).
        -- intros q v Rq. assert (length ((k :: p) ++ q) <= n) by (apply (D _ v); eapply reads_app; [right; exact R|exact Rq]). rewrite app_length in H. lia.
        -- intros q d Rq. apply (FU ((k :: p) ++ q)). eapply reads_app; [right; exact R|exact Rq].
        -- apply (FU _ _ R).
        -- exists ((k :: p) ++ q), (VStr (text v)). split; [apply IR; exists v; split; auto; eapply reads_app; [right; exact R|exact Rq]|]. split; [exists q; reflexivity|].
           intros E2. pose proof (reads_ne _ _ _ _ Rq) as NQ. apply NQ. apply (app_inv_head (k :: p)). rewrite app_nil_r. auto.
    + intros p v. apply reads_frame; auto.
    + intros p q c R1 R2. apply B5 in R1. apply (reach_frame h h' a q c FA) in R2. apply (ne_closed _ _ N) in R2. destruct R1 as [->|R1]; [unfold b in *; lia|cbn in R1; lia].
Qed.
End Text.
Print Assumptions C81_fields.
Print Assumptions C81_round_trip.

(** *** the map of C29 as a query: size[w]=3&size[cut][d]=1&name=box *)
Definition shown (v : val) : string := match v with VInt z => if Z.eqb z 3 then "3" else "1" | VSlice _ => "[a b]" | _ => "?" end.
Example C81_part : plainMap part 0 3 /\ bracketKeys part 0.
Proof.
  split; [exact part_plain|]. intros p v R. apply (listing_all 4 part 0 _ eq_refl) in R. cbn in R.
  repeat (destruct R as [R|R]; [injection R as <- <-; repeat constructor|]); destruct R.
Qed.
Definition readBack (h : heap) (f : form) (key : string) : option val := Get (UnmarshalUrlValues (snd (alloc h)) (fst (alloc h)) f) (fst (alloc h)) key.
Example C81_ex : MarshalUrl shown 3 part 0 = Ok [("size[w]", ["3"]); ("size[cut][d]", ["1"]); ("name", ["box"])] /\
  map (readBack part [("name", ["box"]); ("size[cut][d]", ["1"]); ("size[w]", ["3"])]) ["size.w"; "size.cut.d"; "name"; "size.d"] = [Some (VStr "3"); Some (VStr "1"); Some (VStr "box"); None].
Proof. split; reflexivity. Qed.

(** *** what is not kept: slices, empty maps, keys with brackets *)
(** A slice comes back with one element more than it had, the text of the whole slice (the return after its elements is missing, dynmap.go:231-238); a slice of one
    element is followed by such a text as well. *)
Theorem C81_slice_refuted : exists h a f, MarshalUrl shown 2 h a = Ok f /\ Get h a "tags" = Some (VSlice [VStr "a"; VStr "b"]) /\
  readBack h f "tags" = Some (VSlice [VStr "a"; VStr "b"; VStr "[a b]"]).
Proof. exists (mkHeap 1 (fun _ => [("tags", VSlice [VStr "a"; VStr "b"])])), 0. eexists. repeat split. Qed.
Print Assumptions C81_slice_refuted.

(** An empty map is not written, and the values under keys with brackets are read at another path: under "a[b]" the map has no key a, the one read back has. *)
Theorem C81_keys_refuted : (exists h a, Get h a "opts" = Some (VMap 1) /\ MarshalUrl shown 2 h a = Ok [] /\ readBack h [] "opts" = None) /\
  (exists h a f, lookup "a[b]" (hcell h a) = Some (VStr "x") /\ Get h a "a" = None /\ MarshalUrl shown 2 h a = Ok f /\ readBack h f "a.b" = Some (VStr "x") /\ readBack h f "a[b]" = None).
Proof.
  split.
  - exists (mkHeap 2 (fun a => match a with 0 => [("opts", VMap 1)] | _ => [] end)), 0. repeat split.
  - exists (mkHeap 1 (fun _ => [("a[b]", VStr "x")])), 0. eexists. repeat split.
Qed.
Print Assumptions C81_keys_refuted.

(** *** requests *)
Definition noMaps : heap := mkHeap 0 (fun _ => []).
(** The fields of a request are a Go map, visited in no fixed order.  Two spellings of one parameter are two fields, and which of them is kept depends on that order. *)
Theorem C81_order_refuted : exists f f', Permutation f f' /\ NoDup (map fst f) /\ readBack noMaps f "size.w" = Some (VStr "2") /\ readBack noMaps f' "size.w" = Some (VStr "1").
Proof.
  exists [("size.w", ["1"]); ("size[w]", ["2"])], [("size[w]", ["2"]); ("size.w", ["1"])]. split; [constructor|]. split; [repeat constructor; cbn; intuition discriminate|]. split; reflexivity.
Qed.
Print Assumptions C81_order_refuted.

(** Of a value and a value below it under the same name the second is lost in every order: the error of PutWithDot is dropped, or the first overwrites it.  The text of
    the field is nowhere in the map that is read. *)
Theorem C81_conflict_refuted : exists f, NoDup (map (fun x => fieldKey (fst x)) f) /\ In ("size[w]", ["2"]) f /\
  forall f', Permutation f f' -> forall p, ~ reads (UnmarshalUrlValues (snd (alloc noMaps)) (fst (alloc noMaps)) f') (fst (alloc noMaps)) p (VStr "2").
Proof.
  exists [("size", ["1"]); ("size[w]", ["2"])]. split; [repeat constructor; cbn; intuition discriminate|]. split; [right; left; reflexivity|].
  intros f' P p R. apply Permutation_length_2_inv in P as [-> | ->].
  - match type of R with reads ?h ?a _ _ => apply (listing_all 3 h a _ eq_refl) in R end. cbn in R. repeat destruct R as [R|R]; try discriminate; destruct R.
  - match type of R with reads ?h ?a _ _ => apply (listing_all 3 h a _ eq_refl) in R end. cbn in R. repeat destruct R as [R|R]; try discriminate; destruct R.
Qed.
Print Assumptions C81_conflict_refuted.
