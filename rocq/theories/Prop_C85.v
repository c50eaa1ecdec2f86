(** C85: a request sets the parameters of a design and gets one of its sheets. *)
From Coq Require Import String Ascii List ZArith NArith Bool Arith Lia Permutation.
From Verif Require Import Num TextProofs DynModel DynProofs Prop_C27 MergeProofs Prop_C28 FlattenProofs Prop_C29 DynCheck Url Prop_C81 Output Prop_C78 Request.
Import ListNotations.
Local Open Scope string_scope.
Local Open Scope list_scope.

(** *** the parameters of a design *)
Lemma over_ok h pm req n : nested h pm -> goodKeys h pm -> deep h pm n -> nested h req -> goodKeys h req -> deep h req n ->
  exists h1 h2, Clone (S n) h pm = Ok (hnext h, h1) /\ Merge (S n) h1 (hnext h) req = Ok h2 /\ nested h2 (hnext h) /\ hnext h <= hnext h2 /\
    (forall x, x < hnext h -> hcell h2 x = hcell h x) /\ (forall p x, reach h2 (hnext h) p x -> hnext h <= x) /\
    (forall p v, leaf v -> (reads h2 (hnext h) p v <-> reads h req p v \/ (reads h pm p v /\ throughMaps h req p /\ forall w, ~ reads h req p w))).
Proof.
  intros N G D NR GR DR. set (h0 := snd (alloc h)). set (c := hnext h). assert (EC : hcell h0 c = []) by apply alloc_new.
  assert (OLD : forall x, x < hnext h -> hcell h0 x = hcell h x) by (intros x X; apply alloc_old; exact X).
  assert (RC : forall p x, reach h0 c p x -> x = c) by (intros p x [[_ ->]|R]; [reflexivity|destruct (empty_reads _ _ _ _ EC R)]).
  assert (KEEP : forall a, nested h a -> goodKeys h a -> goodKeys h0 a).
  { intros a Na Ga p x R. apply (alloc_reach h a) in R; auto. unfold h0. rewrite alloc_old by (apply (ne_closed _ _ Na _ _ R)). apply (Ga p x R). }
  destruct (merge_ok n h0 c pm) as (h1 & E1 & M1).
  - apply empty_nested; [exact EC|cbn; unfold c; lia].
  - apply alloc_nested; auto.
  - intros p q x R1 R2. apply RC in R1. subst x. apply (alloc_reach h pm) in R2; auto. apply (ne_closed _ _ N) in R2. unfold c in R2. lia.
  - apply KEEP; auto.
  - intros p w R. apply (alloc_reads h pm) in R; auto. apply (D p w R).
  - assert (NX : hnext h < hnext h1) by (pose proof (mg_next _ _ _ _ M1); cbn in *; lia).
    assert (F1 : forall x, x < hnext h -> hcell h1 x = hcell h x).
    { intros x X. rewrite (mg_frame _ _ _ _ M1); [auto|cbn; lia|]. intros p R. apply RC in R. unfold c in R. lia. }
    assert (R1 : forall p x, reach h1 c p x -> c <= x). { intros p x R. apply (mg_reach _ _ _ _ M1) in R as [R|R]; [apply RC in R; lia|cbn in R; unfold c; lia]. }
    assert (FR : forall q x, reach h req q x -> hcell h1 x = hcell h x) by (intros q x R; apply F1, (ne_closed _ _ NR _ _ R)).
    destruct (merge_ok n h1 c req) as (h2 & E2 & M2).
    + apply M1.
    + apply (nested_frame h); auto. lia.
    + intros p q x A B. apply R1 in A. apply (reach_frame h h1 req q x FR) in B. apply (ne_closed _ _ NR) in B. unfold c in A. lia.
    + intros p x R. apply (reach_frame h h1 req p x FR) in R. rewrite (FR _ _ R). apply (GR p x R).
    + intros p w R. apply (reads_frame h h1 p req w FR) in R. apply (DR p w R).
    + exists h1, h2. split; [unfold Clone; cbn [alloc]; change (mkHeap _ _) with h0; fold c; rewrite E1; reflexivity|]. split; [exact E2|]. split; [apply M2|].
      split; [pose proof (mg_next _ _ _ _ M2); lia|]. split; [|split].
      * intros x X. rewrite (mg_frame _ _ _ _ M2); [auto|lia|]. intros p R. apply R1 in R. unfold c in R. lia.
      * intros p x R. apply (mg_reach _ _ _ _ M2) in R as [R|R]; [apply R1 in R; exact R|unfold c; lia].
      * intros p v Lv. rewrite (mg_leaf _ _ _ _ M2) by auto. unfold leafMerge, throughMaps. rewrite (reads_frame h h1 p req v FR). rewrite (mg_leaf _ _ _ _ M1 p v Lv). unfold leafMerge.
        assert (RPM : reads h0 pm p v <-> reads h pm p v) by (apply alloc_reads; auto).
        assert (RRQ : forall q w, reads h1 req q w <-> reads h req q w) by (intros q w; apply reads_frame; exact FR).
        assert (EMP : ~ reads h0 c p v) by (apply empty_reads; exact EC).
        setoid_rewrite RRQ. rewrite RPM. tauto.
Qed.

(** A parameter is what the request says; where the request says nothing, also not for a map around it, it is what the design says.  The rest of the design and the
    parameters of the request are not changed. *)
Theorem C85_params h dm req n : nested h dm -> goodKeys h dm -> deep h dm (S n) -> nested h req -> goodKeys h req -> deep h req n -> disjoint h dm req ->
  exists h', withParams (S n) h dm req = Ok h' /\
    (forall p v, p <> [] -> leaf v -> (reads h' dm ("params" :: p) v <-> reads h req p v \/ (reads h dm ("params" :: p) v /\ throughMaps h req p /\ forall w, ~ reads h req p w))) /\
    (forall k p v, k <> "params" -> (reads h' dm (k :: p) v <-> reads h dm (k :: p) v)) /\
    (forall p v, reads h' req p v <-> reads h req p v).
Proof.
  intros N G D NR GR DR DJ.
  assert (X : exists pm h0, match GetDynMap h dm "params" with Some x => x | None => alloc h end = (pm, h0) /\ nested h0 pm /\ goodKeys h0 pm /\ deep h0 pm n /\ hnext h <= hnext h0 /\
    (forall x, x < hnext h -> hcell h0 x = hcell h x) /\ (forall p v, p <> [] -> (reads h0 pm p v <-> reads h dm ("params" :: p) v))).
  { assert (NONE : (forall p v, p <> [] -> ~ reads h dm ("params" :: p) v) -> exists pm h0, alloc h = (pm, h0) /\ nested h0 pm /\ goodKeys h0 pm /\ deep h0 pm n /\ hnext h <= hnext h0 /\
      (forall x, x < hnext h -> hcell h0 x = hcell h x) /\ (forall p v, p <> [] -> (reads h0 pm p v <-> reads h dm ("params" :: p) v))).
    { intros NO. exists (hnext h), (snd (alloc h)). assert (E : hcell (snd (alloc h)) (hnext h) = []) by apply alloc_new. split; [reflexivity|]. split; [apply empty_nested; [exact E|cbn; lia]|].
      split; [intros p c [[_ ->]|R]; [rewrite E; split; [constructor|intros k []]|destruct (empty_reads _ _ _ _ E R)]|]. split; [intros p v R; destruct (empty_reads _ _ _ _ E R)|]. split; [cbn; lia|].
      split; [intros x X; apply alloc_old; exact X|]. intros p v Hp. split; intros R; [destruct (empty_reads _ _ _ _ E R)|destruct (NO p v Hp R)]. }
    unfold GetDynMap, Get. destruct (lookup "params" (hcell h dm)) as [v|] eqn:L.
    - destruct (leaf_dec v) as [Lv|[pm ->]].
      + assert (TD : toDyn h v = None). { destruct v; try reflexivity; [destruct (Lv a eq_refl)|exfalso; apply (ne_strings _ _ N ["params"] l); constructor; exact L]. }
        rewrite TD. apply NONE. intros [|k p] w Hp R; [congruence|]. apply reads_cons in R as (c & Lc & _). rewrite L in Lc. injection Lc as ->. destruct (Lv c eq_refl).
      + exists pm, h. split; [reflexivity|]. split; [exact (nested_sub _ _ _ _ N L)|]. split; [exact (goodKeys_sub _ _ _ _ G L)|]. split.
        { intros [|k p] w R; [cbn; lia|]. assert (length ("params" :: k :: p) <= S n) by (apply (D _ w); eapply rd_more; eauto). cbn in *. lia. }
        split; [lia|]. split; [auto|]. intros [|k p] w Hp; [congruence|]. rewrite reads_cons, L. split; [intros R; exists pm; auto|intros (c & [= <-] & R); exact R].
    - apply NONE. intros [|k p] w Hp R; [congruence|]. apply reads_cons in R as (c & Lc & _). congruence. }
  destruct X as (pm & h0 & E0 & N0 & G0 & D0 & X0 & F0 & P0).
  assert (FR0 : forall q x, reach h req q x -> hcell h0 x = hcell h x) by (intros q x R; apply F0, (ne_closed _ _ NR _ _ R)).
  destruct (over_ok h0 pm req n N0 G0 D0) as (h1 & h2 & E1 & E2 & N2 & X2 & F2 & R2 & L2).
  - apply (nested_frame h); auto.
  - intros p x R. apply (reach_frame h h0 req p x FR0) in R. rewrite (FR0 _ _ R). apply (GR p x R).
  - intros p w R. apply (reads_frame h h0 p req w FR0) in R. apply (DR p w R).
  - unfold withParams. rewrite E0, E1. cbn [bind]. rewrite E2. cbn [bind]. eexists. split; [reflexivity|]. set (c := hnext h0) in *. set (h3 := Put h2 dm "params" (VMap c)).
    assert (DM : dm < hnext h) by (apply (ne_closed _ _ N [] dm), reach_nil).
    assert (F : forall x, x < hnext h -> x <> dm -> hcell h3 x = hcell h x). { intros x A B. unfold h3, Put. rewrite store_other by congruence. rewrite F2 by (unfold c in *; lia). apply F0. exact A. }
    assert (RR : forall q w, reads h0 req q w <-> reads h req q w) by (intros q w; apply reads_frame; exact FR0).
    split; [|split].
    + intros p v Hp Lv. destruct p as [|k p]; [congruence|]. rewrite reads_cons. unfold h3 at 1. unfold Put at 1. rewrite store_same, lookup_set_same.
      transitivity (reads h2 c (k :: p) v).
      * assert (S : reads h3 c (k :: p) v <-> reads h2 c (k :: p) v). { apply reads_frame. intros q x R. apply R2 in R. unfold h3, Put. apply store_other. unfold c in R. lia. }
        split; [intros (b & [= <-] & R); apply S; exact R|intros R; exists c; split; [reflexivity|apply S; exact R]].
      * rewrite L2 by auto. unfold throughMaps. setoid_rewrite RR. rewrite (P0 (k :: p) v) by discriminate. reflexivity.
    + intros k p v Hk. assert (LK : lookup k (hcell h3 dm) = lookup k (hcell h dm)). { unfold h3, Put. rewrite store_same, lookup_set_other by congruence. rewrite F2 by (unfold c; lia). rewrite F0 by exact DM. reflexivity. }
      destruct p as [|k2 p]; [rewrite !reads_one, LK; reflexivity|]. rewrite !reads_cons, LK. split; intros (b & Lb & R); exists b; (split; [exact Lb|]).
      * apply (reads_frame h h3) in R; [exact R|]. intros q x Q. assert (RX : reach h dm (k :: q) x) by (apply reach_cons; eauto). apply F; [apply (ne_closed _ _ N _ _ RX)|]. intros ->. assert (k :: q = []) by (apply (ne_tree _ _ N (k :: q) [] dm); [exact RX|apply reach_nil]). discriminate.
      * apply (reads_frame h h3); [|exact R]. intros q x Q. assert (RX : reach h dm (k :: q) x) by (apply reach_cons; eauto). apply F; [apply (ne_closed _ _ N _ _ RX)|]. intros ->. assert (k :: q = []) by (apply (ne_tree _ _ N (k :: q) [] dm); [exact RX|apply reach_nil]). discriminate.
    + intros p v. apply reads_frame. intros q x Q. apply F; [apply (ne_closed _ _ NR _ _ Q)|]. intros ->. apply (DJ [] q dm); [apply reach_nil|exact Q].
Qed.
Print Assumptions C85_params.

(** *** the fields of a request *)
(** a path and a text for each parameter; no dots or brackets in the names, no parameter inside another one *)
Notation fields := (list (list string * string)).
Definition formOf (fs : fields) : form := map (fun pt => (field (fst pt), [snd pt])) fs.
Record okFields (fs : fields) : Prop := mkOkFields {
  of_path : forall p t, In (p, t) fs -> p <> [] /\ Forall (fun k => dotFree k = true /\ bracketFree k = true) p;
  of_free : forall p t q u, In (p, t) fs -> In (q, u) fs -> prefix p q -> p = q /\ t = u;
  of_once : NoDup (map fst fs) }.
(** nothing asked for at the path, above it or below it *)
Definition untouched (fs : fields) (p : list string) : Prop := forall q t, In (q, t) fs -> ~ prefix q p /\ ~ prefix p q.

Definition readForm (h : heap) (fs : fields) : heap := UnmarshalUrlValues (snd (alloc h)) (fst (alloc h)) (formOf fs).
Lemma request_built h fs : uniqueKeys h -> okFields fs -> built (snd (alloc h)) (hnext h) (rev (map (fun pt => (fst pt, VStr (snd pt))) fs)) (readForm h fs).
Proof.
  intros U [O1 O2 O3]. set (l2 := map (fun pt => (fst pt, VStr (snd pt))) fs). set (b := hnext h). set (h1 := snd (alloc h)). assert (EB : hcell h1 b = []) by apply alloc_new.
  assert (INp : forall p w, In (p, w) l2 <-> exists t, In (p, t) fs /\ w = VStr t).
  { intros p w. unfold l2. rewrite in_map_iff. split; [intros ([q v] & [= <- <-] & I); eauto|intros (t & I & ->); exists (p, t); auto]. }
  destruct (putAll_ok l2 h1 b [] h1) as (h' & E' & B).
  - intros p w I. apply INp in I as (t & I & ->). destruct (O1 p t I) as [P1 P2]. split; [exact P1|]. split; [eapply Forall_impl; [|exact P2]; cbn; tauto|]. split; discriminate.
  - rewrite app_nil_r. intros p v q w I1 I2 PF. apply INp in I1 as (t & I1 & ->), I2 as (u & I2 & ->). destruct (O2 p t q u I1 I2 PF) as [-> ->]. auto.
  - rewrite app_nil_r. unfold l2. rewrite map_map. exact O3.
  - constructor; auto.
    + apply empty_nested; [exact EB|cbn; unfold b; lia].
    + apply uniqueKeys_alloc; auto.
    + intros p c [[_ ->]|R]; [auto|destruct (empty_reads _ _ _ _ EB R)].
    + intros p v _. split; [intros R; destruct (empty_reads _ _ _ _ EB R)|intros []].
    + intros p _. split; [intros [c R]; destruct (empty_reads _ _ _ _ EB R)|intros (q & v & [] & _)].
  - rewrite app_nil_r in B. replace (readForm h fs) with h'; [exact B|]. unfold readForm. change (fst (alloc h)) with b. fold h1.
    clearbody h1 b. clear -E' O1. revert h1 E'. subst l2. induction fs as [|[p t] r IH]; intros h1 E'; cbn [map fst snd formOf UnmarshalUrlValues putAllDots] in *; [injection E' as ->; reflexivity|].
    rewrite fieldKey_field. 2:{ destruct (O1 p t (or_introl eq_refl)) as [_ P2]. eapply Forall_impl; [|exact P2]. cbn. tauto. }
    cbn [fieldValue]. destruct (PutWithDot h1 b (dots p) (VStr t)); try discriminate. cbn [bind] in E'. apply IH; auto. intros q u I. apply (O1 q u). right. exact I.
Qed.
Lemma request_leaf h fs p v : uniqueKeys h -> okFields fs -> leaf v -> (reads (readForm h fs) (hnext h) p v <-> exists t, In (p, t) fs /\ v = VStr t).
Proof.
  intros U O Lv. pose proof (request_built h fs U O) as B. rewrite (bt_leaf _ _ _ _ B) by auto. rewrite <- in_rev, in_map_iff. split; [intros ([q t] & [= <- <-] & I); eauto|intros (t & I & ->); exists (p, t); auto].
Qed.
Lemma request_map h fs p : uniqueKeys h -> okFields fs -> p <> [] -> ((exists c, reads (readForm h fs) (hnext h) p (VMap c)) <-> exists q t, In (q, t) fs /\ prefix p q /\ p <> q).
Proof.
  intros U O Hp. pose proof (request_built h fs U O) as B. rewrite (bt_map _ _ _ _ B) by auto. split; intros (q & t & I & P).
  - apply in_rev in I. apply in_map_iff in I as ([q' t'] & [= <- <-] & I). eauto.
  - exists q, (VStr t). split; [apply -> in_rev; apply in_map_iff; exists (q, t); auto|exact P].
Qed.
Lemma request_any h fs p v : uniqueKeys h -> okFields fs -> reads (readForm h fs) (hnext h) p v -> exists q t, In (q, t) fs /\ prefix p q.
Proof.
  intros U O R. destruct (leaf_dec v) as [Lv|[c ->]]; [apply request_leaf in R as (t & I & _); auto; exists p, t; split; [exact I|exists []; rewrite app_nil_r; reflexivity]|].
  destruct (proj1 (request_map h fs p U O (reads_ne _ _ _ _ R))) as (q & t & I & P & _); [exists c; exact R|eauto].
Qed.
Lemma request_good h fs : uniqueKeys h -> okFields fs -> goodKeys (readForm h fs) (hnext h).
Proof.
  intros U O p c R. pose proof (request_built h fs U O) as B. split; [apply (bt_unique _ _ _ _ B)|]. intros k K. apply in_map_iff in K as ([k' u] & Ek & K). cbn in Ek. subst k'.
  assert (L : reads (readForm h fs) c [k] u) by (constructor; apply In_lookup; [apply (bt_unique _ _ _ _ B)|exact K]). pose proof (reads_app _ _ _ _ _ _ R L) as R2.
  destruct (request_any h fs _ _ U O R2) as (q & t & I & [r ->]). destruct (of_path fs O _ _ I) as [_ F]. rewrite !Forall_app in F. destruct F as [[_ F] _]. inversion F as [|? ? [F1 _]]. exact F1.
Qed.
Lemma request_deep h fs n : uniqueKeys h -> okFields fs -> (forall p t, In (p, t) fs -> length p <= n) -> deep (readForm h fs) (hnext h) n.
Proof. intros U O D p v R. destruct (request_any h fs _ _ U O R) as (q & t & I & [r ->]). apply D in I. rewrite app_length in I. lia. Qed.

(** With the fields of a request, a parameter is the text of its field, or as in the design if no field has to do with it; there are no others.  The rest of the design
    stays as it is. *)
Theorem C85_request h dm n fs : nested h dm -> goodKeys h dm -> uniqueKeys h -> deep h dm (S n) -> okFields fs -> (forall p t, In (p, t) fs -> length p <= n) ->
  exists h', withParams (S n) (readForm h fs) dm (hnext h) = Ok h' /\
    (forall p v, p <> [] -> leaf v -> (reads h' dm ("params" :: p) v <-> (exists t, In (p, t) fs /\ v = VStr t) \/ (reads h dm ("params" :: p) v /\ untouched fs p))) /\
    (forall k p v, k <> "params" -> (reads h' dm (k :: p) v <-> reads h dm (k :: p) v)).
Proof.
  intros N G U D O DF. pose proof (request_built h fs U O) as B. set (b := hnext h) in *. set (h1 := readForm h fs) in *.
  assert (F : forall x, x < hnext h -> hcell h1 x = hcell h x). { intros x X. rewrite (bt_frame _ _ _ _ B); [apply alloc_old; exact X|cbn; lia|unfold b; lia]. }
  assert (FD : forall q x, reach h dm q x -> hcell h1 x = hcell h x) by (intros q x R; apply F, (ne_closed _ _ N _ _ R)).
  assert (RD : forall p v, reads h1 dm p v <-> reads h dm p v) by (intros p v; apply reads_frame; exact FD).
  assert (NX : hnext h <= hnext h1) by (pose proof (bt_next _ _ _ _ B) as X; cbn in X; lia).
  destruct (C85_params h1 dm b n) as (h' & E & P1 & P2 & _).
  - apply (nested_frame h); auto.
  - intros p x R. apply (reach_frame h h1 dm p x FD) in R. rewrite (FD _ _ R). apply (G p x R).
  - intros p v R. apply RD in R. apply (D p v R).
  - apply B.
  - apply request_good; auto.
  - apply request_deep; auto.
  - intros p q x R1 R2. apply (reach_frame h h1 dm p x FD) in R1. apply (ne_closed _ _ N) in R1. apply (bt_reach _ _ _ _ B) in R2. unfold b in R2. cbn in R2. lia.
  - exists h'. split; [exact E|]. split; [|intros k p v Hk; rewrite P2 by auto; apply RD]. intros p v Hp Lv. rewrite P1 by auto. rewrite RD. unfold h1 at 1, b at 1. rewrite request_leaf by auto.
    assert (S : (throughMaps h1 b p /\ (forall w, ~ reads h1 b p w)) <-> untouched fs p).
    { split.
      - intros [T NW] q t I. assert (Rq : reads h1 b q (VStr t)) by (apply request_leaf; auto; [discriminate|eauto]). split.
        + intros Q. apply (T q _ Q Rq). discriminate.
        + intros [r ->]. destruct r as [|k r]; [rewrite app_nil_r in *; apply (NW _ Rq)|]. destruct (reads_through h1 p b k r (VStr t) Hp Rq) as [c Rc]. apply (NW _ Rc).
      - intros UT. split.
        + intros q w Q R Lw. apply request_leaf in R as (t & I & ->); auto. destruct (UT q t I) as [X _]. contradiction.
        + intros w R. destruct (request_any h fs p w U O R) as (q & t & I & Q). destruct (UT q t I) as [_ X]. contradiction. }
    rewrite <- S. tauto.
Qed.
Print Assumptions C85_request.

(** *** the answer *)
Definition start : heap := mkHeap 0 (fun _ => []).
Definition asked : fields -> heap := readForm start.
Lemma start_unique : uniqueKeys start. Proof. intros c. constructor. Qed.
Section Answer.
Variables (isDir : string -> bool) (clean : string -> string) (toInt : val -> option Z) (show : val -> string) (rendered : string -> heap -> nat -> option (list string)).
Notation serve := (processRequest isDir clean toInt show rendered).
Lemma asked_get fs k : okFields fs -> dotFree k = true -> (forall t, In ([k], t) fs -> Get (asked fs) 0 k = Some (VStr t)) /\ ((forall p t, In (p, t) fs -> ~ prefix [k] p) -> Get (asked fs) 0 k = None).
Proof.
  intros O K. assert (N : nested (asked fs) 0) by apply (bt_nested _ _ _ _ (request_built start fs start_unique O)). assert (S : splitDots k = [k]) by (apply splitDots_free; exact K). split.
  - intros t I. apply (Get_reads (asked fs) 0 k (VStr t) N); [left; exact K|]. rewrite S. apply (request_leaf start fs [k] (VStr t) start_unique O); [discriminate|eauto].
  - intros NO. destruct (Get (asked fs) 0 k) as [v|] eqn:E; [|reflexivity]. apply (Get_reads (asked fs) 0 k v N) in E; [|left; exact K]. rewrite S in E. destruct (request_any start fs _ _ start_unique O E) as (q & t & I & P). destruct (NO q t I P).
Qed.
Lemma asked_text fs k t : okFields fs -> dotFree k = true -> In ([k], t) fs -> t <> "" -> getText show (asked fs) 0 k = Some t.
Proof. intros O K I T. unfold getText. rewrite (proj1 (asked_get fs k O K) t I). cbn [toText]. apply String.eqb_neq in T. rewrite T. reflexivity. Qed.

(** The sheet with the number that is asked for is the body of the answer; without a name to save under no file is written. *)
Theorem C85_answer fs file s i sheets t d : okFields fs -> In (["file"], file) fs -> file <> "" -> In (["index"], s) fs -> toInt (VStr s) = Some (Z.of_nat i) ->
  rendered file (asked fs) 0 = Some sheets -> nth_error sheets i = Some t -> (forall p u, In (p, u) fs -> ~ prefix ["save_file"] p) ->
  exists w, serve (formOf fs) d = Ok (d, w) /\ a_body w = t.
Proof.
  intros O I1 F I2 TI R NT NS. unfold processRequest. cbn [alloc]. change (UnmarshalUrlValues _ _ (formOf fs)) with (asked fs). change (hnext _) with 0. rewrite (asked_text fs "file" file O eq_refl I1 F). rewrite R.
  unfold getInt. rewrite (proj1 (asked_get fs "index" O eq_refl) s I2), TI. assert (L : (Z.of_nat i <? 0)%Z = false) by (apply Z.ltb_ge; lia). rewrite L, Nat2Z.id, NT.
  unfold getText. rewrite (proj2 (asked_get fs "save_file" O eq_refl) NS). eexists. split; [reflexivity|reflexivity].
Qed.

(** Without a number, or with a text that is none, it is the first sheet; without a file it is the box of the tests. *)
Theorem C85_default fs file sheets t d : okFields fs -> In (["file"], file) fs /\ file <> "" \/ (forall p u, In (p, u) fs -> ~ prefix ["file"] p) /\ file = "dom/testdata/box_test.hfd" ->
  (forall p u, In (p, u) fs -> ~ prefix ["index"] p) \/ (exists s, In (["index"], s) fs /\ toInt (VStr s) = None) ->
  rendered file (asked fs) 0 = Some (t :: sheets) -> (forall p u, In (p, u) fs -> ~ prefix ["save_file"] p) ->
  exists w, serve (formOf fs) d = Ok (d, w) /\ a_body w = t.
Proof.
  intros O HF HI R NS. unfold processRequest. cbn [alloc]. change (UnmarshalUrlValues _ _ (formOf fs)) with (asked fs). change (hnext _) with 0.
  assert (EF : match getText show (asked fs) 0 "file" with Some s => s | None => "dom/testdata/box_test.hfd" end = file).
  { destruct HF as [[I1 F]|[NF ->]]; [rewrite (asked_text fs "file" file O eq_refl I1 F); reflexivity|]. unfold getText. rewrite (proj2 (asked_get fs "file" O eq_refl) NF). reflexivity. }
  rewrite EF, R. assert (EI : getInt toInt (asked fs) 0 "index" = 0%Z).
  { unfold getInt. destruct HI as [NI|(s & I & E)]; [rewrite (proj2 (asked_get fs "index" O eq_refl) NI); reflexivity|]. rewrite (proj1 (asked_get fs "index" O eq_refl) s I), E. reflexivity. }
  rewrite EI. cbn [Z.ltb Z.compare Z.to_nat nth_error]. unfold getText. rewrite (proj2 (asked_get fs "save_file" O eq_refl) NS). eexists. split; reflexivity.
Qed.
(** A design that cannot be rendered is not reported: the answer is empty, and nothing else is done. *)
Theorem C85_silent_refuted fs file d : okFields fs -> In (["file"], file) fs -> file <> "" -> rendered file (asked fs) 0 = None -> exists w, serve (formOf fs) d = Ok (d, w) /\ a_body w = "" /\ a_header w = [].
Proof.
  intros O I1 F R. unfold processRequest. cbn [alloc]. change (UnmarshalUrlValues _ _ (formOf fs)) with (asked fs). change (hnext _) with 0. rewrite (asked_text fs "file" file O eq_refl I1 F), R. eexists. repeat split.
Qed.

(** A number beyond the last sheet, or a negative one, is not refused: the program panics. *)
Theorem C85_index_refuted fs file s i sheets d : okFields fs -> In (["file"], file) fs -> file <> "" -> In (["index"], s) fs -> toInt (VStr s) = Some i ->
  rendered file (asked fs) 0 = Some sheets -> (i < 0 \/ Z.of_nat (length sheets) <= i)%Z -> serve (formOf fs) d = Panic.
Proof.
  intros O I1 F I2 TI R B. unfold processRequest. cbn [alloc]. change (UnmarshalUrlValues _ _ (formOf fs)) with (asked fs). change (hnext _) with 0. rewrite (asked_text fs "file" file O eq_refl I1 F). rewrite R.
  unfold getInt. rewrite (proj1 (asked_get fs "index" O eq_refl) s I2), TI. destruct (Z.ltb_spec i 0) as [L|L]; [reflexivity|]. replace (nth_error sheets (Z.to_nat i)) with (@None string); [reflexivity|]. symmetry. apply nth_error_None. lia.
Qed.

(** The name to save under is not used: the arguments of createFilename are exchanged (main.go:361), and the sheets are saved next to the design, under its name. *)
Theorem C85_save_refuted fs p name sheets d d' w : okFields fs -> shaped p -> dp_name p <> "" -> isDir (text p) = false -> In (["file"], text p) fs -> In (["save_file"], name) fs -> name <> "" ->
  rendered (text p) (asked fs) 0 = Some sheets -> serve (formOf fs) d = Ok (d', w) -> d' = save d (dp_dir p ++ dp_name p)%string sheets.
Proof.
  intros O SH NE ND I1 I2 F2 R. unfold processRequest. cbn [alloc]. change (UnmarshalUrlValues _ _ (formOf fs)) with (asked fs). change (hnext _) with 0.
  rewrite (asked_text fs "file" (text p) O eq_refl I1), R. 2:{ unfold text. destruct (dp_dir p); [|discriminate]. destruct (dp_name p); [contradiction|discriminate]. }
  rewrite (asked_text fs "save_file" name O eq_refl I2 F2). match goal with |- context [match ?X with Some _ => _ | None => Panic end] => destruct X end; [|discriminate].
  rewrite (C78_given isDir clean p name SH NE ND). intros E. injection E as <- _. reflexivity.
Qed.

(** The answer never has the type that the program sets: it is set after the body (main.go:357). *)
Theorem C85_type_refuted f d d' w : serve f d = Ok (d', w) -> forall v, a_sent w <> Some v \/ lookup "Content-Type" v = None.
Proof.
  unfold processRequest. cbn [alloc]. destruct (rendered _ _ _) as [sheets|]; [|intros E v; injection E as _ <-; left; discriminate].
  match goal with |- context [match ?X with Some _ => _ | None => Panic end] => destruct X end; [|discriminate].
  destruct (getText _ _ _ _); intros E v; injection E as _ <-; cbn; destruct v; [right; reflexivity|left; discriminate|right; reflexivity|left; discriminate].
Qed.
End Answer.
Print Assumptions C85_answer.
Print Assumptions C85_index_refuted.
Print Assumptions C85_save_refuted.
Print Assumptions C85_type_refuted.

(** *** examples *)
(** {"params": {"width": 3, "index": 5, "lid": {"depth": 1}}, "title": "box"} *)
Definition design : heap := mkHeap 3 (fun a => match a with 0 => [("params", VMap 1); ("title", VStr "box")] | 1 => [("width", VInt 3); ("index", VInt 5); ("lid", VMap 2)] | 2 => [("depth", VInt 1)] | _ => [] end).
Definition query : fields := [(["file"], "designs/box.hfd"); (["lid"; "depth"], "2"); (["index"], "1")].
Ltac inFields := repeat match goal with H : In _ _ |- _ => cbn in H | H : _ \/ _ |- _ => destruct H | H : False |- _ => destruct H | H : (_, _) = (_, _) |- _ => injection H as <- <- end.
Lemma query_ok : okFields query.
Proof.
  constructor.
  - intros p t I. inFields; (split; [discriminate|]); repeat constructor.
  - intros p t q u I J [r E]. inFields; try discriminate E; auto.
  - repeat constructor; cbn; intuition discriminate.
Qed.
Lemma design_ok : nested design 0 /\ goodKeys design 0 /\ uniqueKeys design /\ deep design 0 3.
Proof.
  split; [apply (okNested_ok 4); reflexivity|]. split; [apply (okKeys_ok 4); reflexivity|]. split; [|apply (okDeep_ok 4); reflexivity].
  intros [|[|[|c]]]; cbn; repeat constructor; cbn; intuition discriminate.
Qed.
Example C85_request_ex : okFields query /\ (nested design 0 /\ goodKeys design 0 /\ uniqueKeys design /\ deep design 0 3) /\ untouched query ["width"] /\
  match withParams 3 (readForm design query) 0 3 with Ok h => map (Get h 0) ["params.lid.depth"; "params.width"; "params.index"; "params.file"; "title"] | _ => [] end = [Some (VStr "2"); Some (VInt 3); Some (VStr "1"); Some (VStr "designs/box.hfd"); Some (VStr "box")].
Proof.
  split; [exact query_ok|]. split; [exact design_ok|]. split; [|reflexivity]. intros q t I. split; intros [r E]; inFields; discriminate E.
Qed.
Definition exServe := processRequest (fun _ => false) (fun s => s) (fun v => match v with VStr "1" => Some 1%Z | VStr "7" => Some 7%Z | _ => None end) (fun _ => "") (fun f _ _ => if String.eqb f "designs/box.hfd" then Some ["sheet 0"; "sheet 1"] else None).
Example C85_answer_ex : match exServe (formOf query) (fun _ => None) with Ok (_, w) => a_body w | _ => "" end = "sheet 1" /\
  exServe (formOf [(["file"], "designs/box.hfd"); (["index"], "7")]) (fun _ => None) = Panic.
Proof. split; reflexivity. Qed.
Example C85_save_ex : match exServe (formOf [(["file"], "designs/box.hfd"); (["save_file"], "out/lid.svg")]) (fun _ => None) with Ok (d, w) => map d ["designs/box_000.svg"; "designs/box_001.svg"; "out/lid_000.svg"; "out/lid.svg"] | _ => [] end = [Some "sheet 0"; Some "sheet 1"; None; None].
Proof. reflexivity. Qed.

(** What is asked of the server is asked of the design as well: the number of the sheet replaces a parameter of the design that is called index. *)
Theorem C85_names_refuted : exists h fs h', nested h 0 /\ okFields fs /\ Get h 0 "params.index" = Some (VInt 5) /\ In (["index"], "1") fs /\
  withParams 3 (readForm h fs) 0 (hnext h) = Ok h' /\ Get h' 0 "params.index" = Some (VStr "1").
Proof. exists design, query. eexists. split; [apply design_ok|]. split; [exact query_ok|]. split; [reflexivity|]. split; [right; right; left; reflexivity|]. split; reflexivity. Qed.
Print Assumptions C85_names_refuted.
Example C85_default_ex : match exServe (formOf [(["file"], "designs/box.hfd"); (["index"], "first")]) (fun _ => None) with Ok (_, w) => a_body w | _ => "" end = "sheet 0" /\
  match exServe (formOf [(["file"], "designs/lid.hfd")]) (fun _ => None) with Ok (_, w) => a_body w | _ => "?" end = "" /\ okFields [(["file"], "designs/box.hfd"); (["index"], "first")].
Proof.
  split; [reflexivity|]. split; [reflexivity|]. constructor.
  - intros p t I. inFields; (split; [discriminate|]); repeat constructor.
  - intros p t q u I J [r E]. inFields; try discriminate E; auto.
  - repeat constructor; cbn; intuition discriminate.
Qed.
Print Assumptions C85_default. Print Assumptions C85_silent_refuted.
