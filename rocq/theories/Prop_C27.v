(** C27: dotted put and get agree. *)
From Coq Require Import String List ZArith Bool Arith Lia.
From Verif Require Import Num DynModel DynProofs.
Import ListNotations.
Local Open Scope string_scope.
Local Open Scope list_scope.

(** a nested map as JSON gives it: no map is part of two others or of itself, all of them exist, and none is a map[string]string *)
Record nested (h : heap) (a : nat) : Prop := mkNested {
  ne_tree : noShare h a; ne_closed : closed h a; ne_strings : forall p l, ~ reads h a p (VStrMap l) }.

Lemma nested_noStr h a ks : nested h a -> noStrMap h a ks.
Proof. intros N p q l _ _. apply (ne_strings _ _ N). Qed.

(** plain keys behave like a map *)
Theorem C27_plain h a key v : Get (Put h a key v) a key = Some v /\
  (forall k, dotFree k = true -> k <> key -> Get (Put h a key v) a k = Get h a k).
Proof.
  split.
  - unfold Get, Put. rewrite store_same, lookup_set_same. reflexivity.
  - intros k D Hk. unfold Get, Put. rewrite store_same, lookup_set_other by congruence. apply splitDots_free in D. rewrite D. reflexivity.
Qed.
Print Assumptions C27_plain.

(** the literal key is looked up before the dotted one; a dotted key is read by following its parts *)
Lemma Get_reads h a key v : nested h a -> dotFree key = true \/ lookup key (hcell h a) = None -> Get h a key = Some v <-> reads h a (splitDots key) v.
Proof.
  intros N H. unfold Get. destruct (dotFree key) eqn:D.
  - apply splitDots_free in D. rewrite D, reads_one. destruct (lookup key (hcell h a)); reflexivity.
  - destruct H as [H|H]; [discriminate|]. rewrite H. destruct (splitDots key) as [|k [|k2 r]] eqn:E.
    + destruct (splitDots_nonempty _ E).
    + pose proof (splitDots_one _ _ E). subst k. apply splitDots_free in E. congruence.
    + split; [apply walk_reads, nested_noStr; auto|apply reads_walk].
Qed.

Lemma PutWithDot_ok h a key v h' : nested h a -> PutWithDot h a key v = Ok h' -> putOk h a (splitDots key) v h'.
Proof.
  intros N E. apply putDots_ok; [apply splitDots_nonempty|apply N|apply N|apply nested_noStr; auto|].
  unfold PutWithDot in E. destruct (splitDots key) as [|k [|k2 r]] eqn:S; auto. pose proof (splitDots_one _ _ S). subst k. exact E.
Qed.
Lemma head_literal key : dotFree key = false -> [key] <> firstn 1 (splitDots key).
Proof.
  intros D. pose proof (splitDots_parts key) as P. destruct (splitDots key) as [|k r]; [discriminate|]. cbn [firstn]. intros E; injection E as <-.
  inversion P; subst. congruence.
Qed.

(** After a successful PutWithDot, Get returns the value (unless the dotted key is also present literally, see C27_literal_refuted). *)
Theorem C27_put_get h a key v h' : nested h a -> dotFree key = true \/ lookup key (hcell h a) = None ->
  PutWithDot h a key v = Ok h' -> Get h' a key = Some v.
Proof.
  intros N H E. pose proof (PutWithDot_ok _ _ _ _ _ N E) as [R _ _ _ RT]. unfold Get.
  destruct (dotFree key) eqn:D.
  - apply splitDots_free in D. rewrite D in R. apply reads_one in R. rewrite R. reflexivity.
  - destruct H as [H|H]; [discriminate|]. rewrite RT, H by (apply head_literal; auto). apply reads_walk in R.
    destruct (splitDots key) as [|k [|k2 r]] eqn:S; auto. pose proof (splitDots_one _ _ S). subst k. apply splitDots_free in S. congruence.
Qed.
Print Assumptions C27_put_get.

(** Keys that neither lead to the key nor go on from it are not affected. *)
Theorem C27_put_others h a key v h' key2 : nested h a -> PutWithDot h a key v = Ok h' ->
  ~ prefix (splitDots key2) (splitDots key) -> ~ prefix (splitDots key) (splitDots key2) -> Get h' a key2 = Get h a key2.
Proof.
  intros N E P1 P2. pose proof (PutWithDot_ok _ _ _ _ _ N E) as [R _ _ EL RT].
  assert (L : lookup key2 (hcell h' a) = lookup key2 (hcell h a)).
  { apply RT. intros E2. destruct (splitDots key) as [|k r] eqn:S; [discriminate|]. cbn [firstn] in E2. injection E2 as <-.
    pose proof (splitDots_parts key) as P. rewrite S in P. inversion P as [|? ? D _]; subst. apply splitDots_free in D. rewrite D in P1. apply P1. exists r. reflexivity. }
  unfold Get. rewrite L. destruct (lookup key2 (hcell h a)); auto. destruct (splitDots key2) as [|k [|k2 r]] eqn:S; [destruct (splitDots_nonempty _ S)|auto|].
  set (ks := k :: k2 :: r) in *.
  assert (SM : noStrMap h' a ks).
  { intros p q l E1 E2 Rp. assert (NP : ~ prefix (splitDots key) p) by (intros [t Et]; apply P2; exists (t ++ q); rewrite E1, Et, app_assoc; reflexivity).
    destruct (prefix_dec p (splitDots key)) as [[t Et]|NP2].
    - destruct t as [|k0 t]; [apply NP; exists []; rewrite Et, !app_nil_r; reflexivity|]. rewrite Et in R.
      destruct p as [|k1 p]; [destruct (reads_nil _ _ _ Rp)|]. assert (NE : k1 :: p <> []) by discriminate. destruct (reads_through _ _ _ _ _ _ NE R) as [b Rb].
      pose proof (reads_fun _ _ _ _ _ Rb Rp). discriminate.
    - apply (EL p _ NP2 NP) in Rp. eapply (ne_strings _ _ N); eauto. }
  assert (W : forall w, walk h' (hcell h' a) ks = Some w <-> walk h (hcell h a) ks = Some w).
  { intros w. split; intros Hw.
    - apply reads_walk, EL; auto. apply walk_reads; auto.
    - apply reads_walk, EL; auto. apply walk_reads; auto. apply nested_noStr; auto. }
  destruct (walk h' (hcell h' a) ks) as [w|] eqn:E1; [symmetry; apply W; reflexivity|].
  destruct (walk h (hcell h a) ks) as [w|] eqn:E2; [|reflexivity]. exact (proj2 (W w) eq_refl).
Qed.
Print Assumptions C27_put_others.

(** PutWithDot fails exactly when a part of the key leads to something that is not a map (it then changes nothing: a map created on the
    way is empty, so nothing below it can be in the way). *)
Theorem C27_put_fails h a key v : nested h a ->
  (PutWithDot h a key v = Err <-> exists p q w, splitDots key = p ++ q /\ q <> [] /\ reads h a p w /\ forall b, w <> VMap b) /\
  (PutWithDot h a key v = Err \/ exists h', PutWithDot h a key v = Ok h').
Proof.
  intros N. pose proof (putDots_error (splitDots key) v (splitDots_nonempty key) h a (ne_closed _ _ N) (nested_noStr _ _ _ N)) as H.
  unfold PutWithDot. destruct (splitDots key) as [|k [|k2 r]] eqn:S; [exact H| |exact H]. pose proof (splitDots_one _ _ S). subst k. exact H.
Qed.
Print Assumptions C27_put_fails.

Lemma Remove_ok h a key : nested h a -> dotFree key = true \/ lookup key (hcell h a) = None ->
  removeOk h a (splitDots key) (fst (Remove h a key)) (snd (Remove h a key)).
Proof.
  intros N H. pose proof (removeDots_ok (splitDots key) (splitDots_nonempty key) h a (ne_tree _ _ N) (nested_noStr _ _ _ N)) as RM.
  unfold Remove. destruct (dotFree key) eqn:D.
  - apply splitDots_free in D. rewrite D in *. cbn [removeDots] in RM. destruct (lookup key (hcell h a)); exact RM.
  - destruct H as [H|H]; [discriminate|]. rewrite H. destruct (splitDots key) as [|k [|k2 r]] eqn:S; [exact RM| |exact RM].
    pose proof (splitDots_one _ _ S). subst k. apply splitDots_free in S. congruence.
Qed.

(** Remove returns what Get returned and makes the key absent (unless it is present both literally and dotted, see C27_remove_refuted);
    keys that do not go on from it are not affected. *)
Theorem C27_remove h a key : nested h a -> dotFree key = true \/ lookup key (hcell h a) = None ->
  let '(h', o) := Remove h a key in
  o = Get h a key /\ Get h' a key = None /\
  forall key2, ~ prefix (splitDots key) (splitDots key2) -> Get h' a key2 = Get h a key2.
Proof.
  intros N H. pose proof (Remove_ok h a key N H) as RM. destruct (Remove h a key) as [h' o]. cbn [fst snd] in RM. destruct RM as [VA GO FR EL RT].
  assert (SM' : forall ks l, ~ reads h' a ks (VStrMap l)).
  { intros ks l R. destruct (prefix_dec (splitDots key) ks) as [[t Et]|NP].
    - destruct t as [|k t]; [rewrite app_nil_r in Et; subst ks; eapply GO; eauto|].
      rewrite Et in R. destruct (reads_through _ _ _ _ _ _ (splitDots_nonempty key) R) as [b Rb]. eapply GO; eauto.
    - apply EL in R; auto. eapply (ne_strings _ _ N); eauto. }
  assert (SMk : forall ks, noStrMap h' a ks) by (intros ks p q l _ _; apply SM').
  split; [|split].
  - destruct o as [v|].
    + symmetry. apply Get_reads; auto. apply VA. reflexivity.
    + destruct (Get h a key) as [v|] eqn:E; auto. apply Get_reads in E; auto. apply VA in E. discriminate.
  - unfold Get. destruct (dotFree key) eqn:D.
    + apply splitDots_free in D. rewrite D in *. destruct (lookup key (hcell h' a)) as [v|] eqn:L; auto. exfalso. apply (GO v). constructor. exact L.
    + destruct H as [H|H]; [discriminate|]. rewrite RT, H by (apply head_literal; auto).
      destruct (splitDots key) as [|k [|k2 r]] eqn:S; [destruct (splitDots_nonempty _ S)|auto|].
      destruct (walk h' (hcell h' a) (k :: k2 :: r)) as [v|] eqn:E; auto. apply walk_reads in E; auto. destruct (GO v E).
  - intros key2 NP. assert (L : lookup key2 (hcell h' a) = lookup key2 (hcell h a)).
    { destruct (dotFree key2) eqn:D2.
      - apply splitDots_free in D2. rewrite D2 in NP. assert (Q : forall v, lookup key2 (hcell h' a) = Some v <-> lookup key2 (hcell h a) = Some v).
        { intros v. rewrite <- !reads_one. apply EL. exact NP. }
        destruct (lookup key2 (hcell h' a)) as [v|]; [symmetry; apply Q; reflexivity|]. destruct (lookup key2 (hcell h a)) as [v|]; [|reflexivity]. exact (proj2 (Q v) eq_refl).
      - apply RT. intros E. destruct (splitDots key) as [|k r] eqn:S; [discriminate|]. cbn [firstn] in E. injection E as <-.
        pose proof (splitDots_parts key) as P. rewrite S in P. inversion P; subst. congruence. }
    unfold Get. rewrite L. destruct (lookup key2 (hcell h a)); auto. destruct (splitDots key2) as [|k [|k2 r]] eqn:S; [destruct (splitDots_nonempty _ S)|auto|].
    set (ks := k :: k2 :: r) in *.
    assert (W : forall w, walk h' (hcell h' a) ks = Some w <-> walk h (hcell h a) ks = Some w).
    { intros w. split; intros Hw.
      - apply reads_walk, EL; auto. apply walk_reads; auto.
      - apply reads_walk, EL; auto. apply walk_reads; auto. apply nested_noStr; auto. }
    destruct (walk h' (hcell h' a) ks) as [w|] eqn:E1; [symmetry; apply W; reflexivity|].
    destruct (walk h (hcell h a) ks) as [w|] eqn:E2; [|reflexivity]. exact (proj2 (W w) eq_refl).
Qed.
Print Assumptions C27_remove.

(** PutIfAbsent never changes a value that is present, and otherwise puts the new one *)
Theorem C27_put_if_absent h a key v :
  (forall v', Get h a key = Some v' -> PutIfAbsent h a key v = (h, (v', false)) /\ PutIfAbsentWithDot h a key v = (h, (v', false))) /\
  (Get h a key = None -> exists h', PutIfAbsent h a key v = (h', (v, true)) /\ Get h' a key = Some v).
Proof.
  split.
  - intros v' E. unfold PutIfAbsent, PutIfAbsentWithDot. rewrite E. auto.
  - intros E. unfold PutIfAbsent. rewrite E. eexists. split; [reflexivity|]. apply C27_plain.
Qed.
Print Assumptions C27_put_if_absent.

(** *** concrete maps *)
(** 0 is {"size": {"w": 3}, "name": "box"}, 1 its part "size" *)
Definition box : heap := mkHeap 2 (fun a => match a with 0 => [("size", VMap 1); ("name", VStr "box")] | 1 => [("w", VInt 3)] | _ => [] end).
Lemma box_reads p v : reads box 0 p v -> (p = ["size"] /\ v = VMap 1) \/ (p = ["name"] /\ v = VStr "box") \/ (p = ["size"; "w"] /\ v = VInt 3).
Proof.
  intros R. destruct p as [|k [|k2 r]]; [destruct (reads_nil _ _ _ R)| |].
  - apply reads_one in R. cbn in R. destruct (String.eqb_spec k "size"); [injection R as <-; subst; auto|].
    destruct (String.eqb_spec k "name"); [injection R as <-; subst; auto|discriminate].
  - apply reads_cons in R as (b & L & R). cbn in L. destruct (String.eqb_spec k "size"); [|destruct (String.eqb_spec k "name"); discriminate].
    injection L as <-. subst k. destruct r as [|k3 r].
    + apply reads_one in R. cbn in R. destruct (String.eqb_spec k2 "w"); [injection R as <-; subst; auto|discriminate].
    + apply reads_cons in R as (c & L & _). cbn in L. destruct (String.eqb_spec k2 "w"); discriminate.
Qed.
Example box_nested : nested box 0.
Proof.
  assert (RE : forall p b, reach box 0 p b -> (p = [] /\ b = 0) \/ (p = ["size"] /\ b = 1)).
  { intros p b [H|H]; [left; exact H|]. apply box_reads in H as [[-> H]|[[-> H]|[-> H]]]; try discriminate. injection H as ->. auto. }
  constructor.
  - intros p q b H1 H2. apply RE in H1 as [[-> ->]|[-> ->]], H2 as [[-> H2]|[-> H2]]; auto; discriminate.
  - intros p b H. apply RE in H as [[_ ->]|[_ ->]]; cbn; lia.
  - intros p l H. apply box_reads in H as [[_ H]|[[_ H]|[_ H]]]; discriminate.
Qed.
Definition got (r : res heap) (key : string) : option val := match r with Ok h => Get h 0 key | _ => None end.
Example C27_put_example : lookup "size.w" (hcell box 0) = None /\ got (PutWithDot box 0 "size.w" (VInt 7)) "size.w" = Some (VInt 7) /\
  got (PutWithDot box 0 "size.d.x" (VInt 7)) "size.d.x" = Some (VInt 7) /\ got (PutWithDot box 0 "size.d.x" (VInt 7)) "size.w" = Some (VInt 3) /\
  PutWithDot box 0 "name.x" (VInt 7) = Err /\ snd (Remove box 0 "size.w") = Some (VInt 3) /\ Get (fst (Remove box 0 "size.w")) 0 "size.w" = None /\
  Get (fst (Remove box 0 "size.w")) 0 "size" = Some (VMap 1).
Proof. repeat split. Qed.
Example C27_others_example : ~ prefix (splitDots "name") (splitDots "size.d.x") /\ ~ prefix (splitDots "size.d.x") (splitDots "name").
Proof. split; intros [t E]; discriminate. Qed.

(** Finding: a dotted key that is present literally hides what PutWithDot writes. *)
Definition literal : heap := mkHeap 1 (fun a => match a with 0 => [("size.w", VInt 3)] | _ => [] end).
Theorem C27_literal_refuted : got (PutWithDot literal 0 "size.w" (VInt 7)) "size.w" = Some (VInt 3).
Proof. reflexivity. Qed.
Print Assumptions C27_literal_refuted.
(** Finding: Remove of a key that is present both literally and dotted only removes the literal one; Get still finds the other. *)
Definition both : heap := mkHeap 2 (fun a => match a with 0 => [("size.w", VInt 3); ("size", VMap 1)] | 1 => [("w", VInt 4)] | _ => [] end).
Theorem C27_remove_refuted : Get (fst (Remove both 0 "size.w")) 0 "size.w" = Some (VInt 4).
Proof. reflexivity. Qed.
Print Assumptions C27_remove_refuted.
(** Finding: what is put below a map[string]string is lost without an error, as it is written to a copy. *)
Definition strings : heap := mkHeap 1 (fun a => match a with 0 => [("attrs", VStrMap [("x", "1")])] | _ => [] end).
Theorem C27_string_map_refuted : PutWithDot strings 0 "attrs.y" (VInt 7) = Ok strings /\ Get strings 0 "attrs.y" = None /\ Get strings 0 "attrs.x" = Some (VStr "1").
Proof. repeat split. Qed.
Print Assumptions C27_string_map_refuted.
