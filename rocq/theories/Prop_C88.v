(** C88: variables set by components are found where they should be. *)
From Coq Require Import String List ZArith Bool Arith Lia.
From Verif Require Import Num DynModel ParamModel Vars DynProofs FlattenProofs Prop_C31 Prop_C32.
Import ListNotations.
Local Open Scope string_scope.
Local Open Scope list_scope.

(** the map at [a] is none of the maps of the element *)
Record away (h : heap) (a : nat) (e : elem) : Prop := mkAway {
  aw_orig : e_orig e <> a; aw_params : e_params e <> Some a; aw_entry : Get h (e_orig e) "params" <> Some (VMap a); aw_doc : e_doc e <> Some a }.

Lemma mapGet_free h l k : dotFree k = true -> mapGet h l k = lookup k l.
Proof. intros D. unfold mapGet. apply splitDots_free in D. rewrite D. destruct (lookup k l); reflexivity. Qed.
Lemma Get_free h a k : dotFree k = true -> Get h a k = lookup k (hcell h a).
Proof. apply mapGet_free. Qed.
Lemma Put_same h a k v : hcell (Put h a k v) a = set k v (hcell h a).
Proof. unfold Put, store. cbn. rewrite Nat.eqb_refl. reflexivity. Qed.
Lemma Put_other h a b k v : a <> b -> hcell (Put h a k v) b = hcell h b.
Proof. intros N. unfold Put, store. cbn. destruct (Nat.eqb_spec a b); [contradiction|reflexivity]. Qed.
Lemma Put_lookup h a b k v n : n <> k -> lookup n (hcell (Put h a k v) b) = lookup n (hcell h b).
Proof.
  intros N. destruct (Nat.eq_dec a b) as [->|E]; [|rewrite Put_other by auto; reflexivity]. rewrite Put_same.
  induction (hcell h b) as [|[k' v'] l IH]; cbn.
  - destruct (String.eqb_spec n k); [contradiction|reflexivity].
  - destruct (String.eqb_spec k k') as [<-|]; cbn; [destruct (String.eqb_spec n k); [contradiction|reflexivity]|]. destruct (String.eqb n k'); auto.
Qed.
Lemma set_found k (v : val) l : lookup k (set k v l) = Some v.
Proof. induction l as [|[k' v'] l IH]; cbn; [rewrite String.eqb_refl; reflexivity|]. destruct (String.eqb k k') eqn:E; cbn; rewrite E; auto. Qed.
Lemma PutWithDot_free h a k v : dotFree k = true -> PutWithDot h a k v = Ok (Put h a k v).
Proof. intros D. unfold PutWithDot. apply splitDots_free in D. rewrite D. reflexivity. Qed.

(** the entries of a value, before and after *)
Lemma entries_put h a k v u n : n <> k -> dotFree n = true ->
  match entries (Put h a k v) u with Some l => mapGet (Put h a k v) l n | None => None end = match entries h u with Some l => mapGet h l n | None => None end /\
  (entries (Put h a k v) u = None <-> entries h u = None).
Proof.
  intros N D. destruct u; cbn [entries]; try (split; [reflexivity|tauto]).
  - rewrite !mapGet_free by auto. rewrite Put_lookup by auto. split; [reflexivity|]. split; discriminate.
  - rewrite !mapGet_free by auto. split; [reflexivity|]. split; discriminate.
Qed.
Lemma stands_put h a k v u w : k <> "value" -> stands (Put h a k v) u w <-> stands h u w.
Proof.
  intros N. rewrite !stands_iff. destruct (entries_put h a k v u "value") as [E1 E2]; [congruence|reflexivity|].
  destruct E2 as [X Y]. destruct (entries (Put h a k v) u) as [l|], (entries h u) as [l'|].
  - rewrite E1. tauto.
  - specialize (Y eq_refl). discriminate.
  - specialize (X eq_refl). discriminate.
  - tauto.
Qed.

(** the parameters of an element away from the map, or when only another name was put *)
Lemma Params_lookup h a k v e n : dotFree k = true -> dotFree n = true -> k <> "params" -> n <> k -> (e_params e = Some a -> hcell h a <> []) ->
  lookup n (Params (Put h a k v) e) = lookup n (Params h e).
Proof.
  intros Dk Dn K N NE. assert (M : lookup n (mustMap (Put h a k v) (e_orig e) "params") = lookup n (mustMap h (e_orig e) "params")).
  { unfold mustMap. rewrite !(Get_free _ _ "params") by reflexivity. rewrite Put_lookup by congruence. destruct (lookup "params" (hcell h (e_orig e))) as [u|]; [|reflexivity].
    destruct (entries_put h a k v u n N Dn) as [E1 [X Y]]. destruct (entries (Put h a k v) u) as [l|] eqn:A1, (entries h u) as [l'|] eqn:A2; auto.
    - rewrite !mapGet_free in E1 by auto. exact E1.
    - specialize (Y eq_refl). discriminate.
    - specialize (X eq_refl). discriminate. }
  unfold Params, storedOr. destruct (e_params e) as [b|]; [|exact M].
  destruct (Nat.eq_dec a b) as [->|AB].
  - specialize (NE eq_refl). pose proof (Put_lookup h b b k v n N) as PL. rewrite Put_same in *. destruct (hcell h b) as [|p l] eqn:EC; [contradiction|].
    destruct (set k v (p :: l)) as [|q m] eqn:ES; [|exact PL]. exfalso. pose proof (set_found k v (p :: l)) as SF. rewrite ES in SF. discriminate.
  - rewrite Put_other by auto. destruct (hcell h b); [exact M|reflexivity].
Qed.
Lemma Params_away h a k v e n : dotFree k = true -> dotFree n = true -> k <> "params" -> e_params e <> Some a -> Get h (e_orig e) "params" <> Some (VMap a) ->
  lookup n (Params (Put h a k v) e) = lookup n (Params h e).
Proof.
  intros Dk Dn K A1 A2. assert (M : mustMap (Put h a k v) (e_orig e) "params" = mustMap h (e_orig e) "params").
  { unfold mustMap. rewrite !(Get_free _ _ "params") in * by reflexivity. rewrite Put_lookup by congruence. destruct (lookup "params" (hcell h (e_orig e))) as [u|]; [|reflexivity].
    destruct u; cbn [entries]; try reflexivity. rewrite Put_other by congruence. reflexivity. }
  unfold Params, storedOr. destruct (e_params e) as [b|]; [|rewrite M; reflexivity]. rewrite Put_other by congruence. rewrite M. reflexivity.
Qed.

(** what an element defines depends on the lookups in its maps *)
Lemma finds_same h h' l l' n w : dotFree n = true -> Forall2 (fun m m' => lookup n m = lookup n m') l l' -> finds h l n w -> finds h' l' n w.
Proof.
  intros D F. induction F as [|m m' l l' E F IH]; intros H; [inversion H|]. apply finds_cons in H. destruct H as [H|[H1 H2]].
  - apply finds_here. rewrite mapGet_free in * by auto. congruence.
  - apply finds_later; [rewrite mapGet_free in * by auto; congruence|auto].
Qed.
Lemma defines_same h h' e n w : dotFree n = true -> (forall u x, stands h' u x <-> stands h u x) ->
  lookup n (Params h' e) = lookup n (Params h e) -> lookup n (hcell h' (e_orig e)) = lookup n (hcell h (e_orig e)) ->
  (forall d, e_doc e = Some d -> lookup n (hcell h' d) = lookup n (hcell h d)) -> defines h' e n w <-> defines h e n w.
Proof.
  intros D ST E1 E2 E3. unfold defines. split; intros (u & F & S); exists u; (split; [|apply ST; exact S]); (eapply finds_same; [exact D| |exact F]); unfold maps; cbn [app];
    (constructor; [congruence|]); (constructor; [congruence|]); destruct (e_doc e) as [d|]; constructor; try constructor; rewrite (E3 d eq_refl); reflexivity.
Qed.

(** Setting a variable changes no other name, for any element. *)
Definition variable (k : string) : Prop := dotFree k = true /\ k <> "params" /\ k <> "value".
Theorem C88_else h a k v e n w : variable k -> dotFree n = true -> n <> k -> (e_params e = Some a -> hcell h a <> []) -> defines (Put h a k v) e n w <-> defines h e n w.
Proof.
  intros (Dk & K1 & K2) Dn N NE. apply defines_same; auto.
  - intros u x. apply stands_put; auto.
  - apply Params_lookup; auto.
  - apply Put_lookup; auto.
  - intros d _. apply Put_lookup; auto.
Qed.
Lemma away_same h a k v e n w : variable k -> dotFree n = true -> away h a e -> defines (Put h a k v) e n w <-> defines h e n w.
Proof.
  intros (Dk & K1 & K2) Dn [A1 A2 A3 A4]. apply defines_same; auto.
  - intros u x. apply stands_put; auto.
  - apply Params_away; auto.
  - rewrite Put_other by auto. reflexivity.
  - intros d E. rewrite Put_other by congruence. reflexivity.
Qed.

(** A local variable is found by the element and by all elements inside it, unless one of them defines the name itself. *)
Theorem C88_local h c es k v fuel : let e := self c in let h' := SetLocal h e k v in
  variable k -> (forall s, v <> VStr s) -> stands h' v v ->
  lookup k (Params h e) = None -> e_params e <> Some (e_orig e) -> Get h (e_orig e) "params" <> Some (VMap (e_orig e)) ->
  (forall e', In e' es -> silent h e' k /\ away h (e_orig e) e') -> 22 <= fuel -> Lookup fuel h' (within es c) k = Ok (Some v).
Proof.
  intros e h' V NS ST NP A1 A2 HE Hf. pose proof V as (Dk & K1 & K2). assert (EH : h' = Put h (e_orig e) k v) by (unfold h', SetLocal; rewrite PutWithDot_free by auto; reflexivity).
  apply (C32_nearest h' es c k v 0 fuel); auto; try lia.
  - intros e' I w Dw. destruct (HE e' I) as [S A]. apply (S w). rewrite EH in Dw. apply (away_same h (e_orig e) k v e' k w V Dk A). exact Dw.
  - apply means_value; [|exact NS]. exists v. split; [|exact ST]. fold e. unfold maps. apply finds_later.
    + rewrite mapGet_free by auto. rewrite EH, Params_away by auto. exact NP.
    + apply finds_here. rewrite mapGet_free by auto. rewrite EH, Put_same. apply set_found.
Qed.

(** the parts of a document are directly in it *)
Definition flat (isPart : elem -> bool) (es : list elem) : Prop := forall e l r, es = l ++ e :: r -> isPart e = true -> r = [].
(** A global variable set by a component of the document, however deep in it, goes to the parameters of the document. *)
Lemma context_flat isPart r d : e_doc r = Some d -> forall es, flat isPart es -> findContext isPart (within es (Root r)) = Ok (Some d).
Proof.
  intros DR. induction es as [|e es IH]; intros F; [cbn; rewrite DR; reflexivity|]. cbn [within fold_right findContext]. destruct (isPart e) eqn:P.
  - rewrite (F e [] es eq_refl P). cbn [fold_right]. rewrite DR. reflexivity.
  - apply IH. intros e' l r' E. apply (F e' (e :: l) r'). rewrite E. reflexivity.
Qed.
Lemma global_put isPart h r d es k v : e_doc r = Some d -> dotFree k = true -> flat isPart (tl es) -> SetGlobal isPart h (within es (Root r)) k v = Ok (Put h d k v).
Proof.
  intros DR Dk F. unfold SetGlobal. destruct es as [|e es]; cbn [within fold_right tl] in *.
  - rewrite DR. cbn [bind]. rewrite PutWithDot_free by auto. reflexivity.
  - fold (within es (Root r)). rewrite (context_flat isPart r d DR es F). cbn [bind]. rewrite PutWithDot_free by auto. reflexivity.
Qed.
(** Every element of the document finds it, unless an element on the way or the document itself defines the name. *)
Theorem C88_global isPart h r d setter es k v fuel : e_doc r = Some d -> flat isPart (tl setter) ->
  variable k -> (forall s, v <> VStr s) -> (forall b, v <> VMap b) -> (forall l, v <> VStrMap l) ->
  lookup k (Params h r) = None -> lookup k (hcell h (e_orig r)) = None -> e_orig r <> d -> e_params r <> Some d -> Get h (e_orig r) "params" <> Some (VMap d) ->
  (forall e', In e' es -> silent h e' k /\ away h d e') -> 22 <= fuel ->
  exists h', SetGlobal isPart h (within setter (Root r)) k v = Ok h' /\ Lookup fuel h' (within es (Root r)) k = Ok (Some v).
Proof.
  intros DR FL V NS NM NT NP NO A0 A1 A2 HE Hf. pose proof V as (Dk & K1 & K2).
  exists (Put h d k v). split; [apply global_put; auto|].
  assert (ST : stands (Put h d k v) v v) by (apply stands_plain; destruct v; try reflexivity; [destruct (NM a eq_refl)|destruct (NT l eq_refl)]).
  apply (C32_nearest _ es (Root r) k v 0 fuel); auto; try lia.
  - intros e' I w Dw. destruct (HE e' I) as [S A]. apply (S w). apply (away_same h d k v e' k w V Dk A). exact Dw.
  - apply means_value; [|exact NS]. exists v. split; [|exact ST]. cbn [self]. unfold maps. rewrite DR. apply finds_later.
    + rewrite mapGet_free by auto. rewrite Params_away by auto. exact NP.
    + apply finds_later; [rewrite mapGet_free, Put_other by auto; exact NO|]. apply finds_here. rewrite mapGet_free by auto. rewrite Put_same. apply set_found.
Qed.
(** A component in a part that is not directly in the document cannot set one, nor one without a document above it. *)
Theorem C88_nested_refuted isPart h c0 e p q es c k v : isPart p = true -> (forall x, In x es -> isPart x = false) ->
  SetGlobal isPart h (Child e (within es (Child p (Child q c)))) k v = Panic /\ SetGlobal isPart h (within es (Orphan c0)) k v = Panic.
Proof.
  intros P NP. assert (A : forall l, (forall x, In x l -> isPart x = false) -> findContext isPart (within l (Child p (Child q c))) = Panic /\ (isPart c0 = false -> findContext isPart (within l (Orphan c0)) = Ok None) /\ (isPart c0 = true -> findContext isPart (within l (Orphan c0)) = Panic)).
  { induction l as [|x l IH]; intros H.
    - cbn. rewrite P. split; [reflexivity|]. split; intros ->; reflexivity.
    - cbn [within fold_right findContext]. rewrite (H x) by (left; reflexivity). apply IH. intros y I. apply H. right. exact I. }
  split.
  - unfold SetGlobal. destruct (A es NP) as [E _]. rewrite E. reflexivity.
  - destruct es as [|x es]; [reflexivity|]. unfold SetGlobal. cbn [within fold_right]. fold (within es (Orphan c0)).
    destruct (A es) as (_ & E1 & E2); [intros y I; apply NP; right; exact I|]. destruct (isPart c0); [rewrite E2|rewrite E1]; reflexivity.
Qed.
Print Assumptions C88_else. Print Assumptions C88_local. Print Assumptions C88_global. Print Assumptions C88_nested_refuted.

(** *** examples: a document with a part, an edge in the part and a line in the edge *)
Definition plan : heap := mkHeap 8 (fun a => match a with
  | 0 => [("params", VMap 1)]
  | 1 => [("height", VInt 3)]
  | 2 => [("id", VStr "side")]
  | 3 => [("type", VStr "edge"); ("params", VMap 4)]
  | 4 => [("gap", VInt 2)]
  | 5 => [("type", VStr "line")]
  | 6 => [("hidden", VInt 1)]
  | _ => [] end).
Definition doc : elem := mkElem None 0 None (Some 7).
Definition part : elem := mkElem None 2 None None.
Definition edge : elem := mkElem None 3 None None.
Definition line : elem := mkElem None 5 None None.
Definition isPartOf (e : elem) : bool := Nat.eqb (e_orig e) 2.
Lemma var_width : variable "width".
Proof. repeat split; discriminate || reflexivity. Qed.
(** the edge sets the width for the line in it; the gap stays *)
Example C88_local_example : Lookup 22 (SetLocal plan edge "width" (VInt 7)) (within [line] (Child edge (within [part] (Root doc)))) "width" = Ok (Some (VInt 7)) /\
  Lookup 22 plan (within [line] (Child edge (within [part] (Root doc)))) "width" = Ok None.
Proof.
  split; [|reflexivity]. apply (C88_local plan (Child edge (within [part] (Root doc))) [line] "width" (VInt 7) 22); auto; try discriminate; try reflexivity.
  - apply var_width.
  - apply stands_plain. reflexivity.
  - intros e' [<-|[]]. split; [apply silent_local; reflexivity|]. constructor; discriminate.
Qed.
Example C88_else_example : defines (Put plan 3 "width" (VInt 7)) edge "gap" (VInt 2) /\ defines plan edge "gap" (VInt 2).
Proof.
  assert (D : defines plan edge "gap" (VInt 2)) by (apply defines_local; reflexivity). split; [|exact D].
  apply (C88_else plan 3 "width" (VInt 7) edge "gap" (VInt 2)); auto; try discriminate. apply var_width.
Qed.
(** the edge sets a length for the document, which the part finds *)
Example C88_global_example : exists h', SetGlobal isPartOf plan (within [edge; part] (Root doc)) "side__length" (VInt 9) = Ok h' /\ Lookup 22 h' (within [part] (Root doc)) "side__length" = Ok (Some (VInt 9)).
Proof.
  apply (C88_global isPartOf plan doc 7 [edge; part] [part]); auto; try discriminate; try reflexivity.
  - intros e [|x l] r E; cbn in E; [injection E as E0 E1; intros _; auto|destruct l; discriminate].
  - repeat split; discriminate || reflexivity.
  - intros e' [<-|[]]. split; [apply silent_local; reflexivity|]. constructor; discriminate.
Qed.
(** an entry of the edge's own params hides the variable it sets, a parameter of the document hides the global one *)
Theorem C88_hidden_refuted : exists h c k v fuel, variable k /\ 22 <= fuel /\ (forall s, v <> VStr s) /\
  Lookup fuel (SetLocal h (self c) k v) c k <> Ok (Some v) /\
  (exists k' h', variable k' /\ SetGlobal isPartOf h c k' v = Ok h' /\ Lookup fuel h' c k' <> Ok (Some v)).
Proof.
  exists plan, (within [edge; part] (Root doc)), "gap", (VInt 7), 22. split; [repeat split; discriminate || reflexivity|]. split; [auto|]. split; [discriminate|]. split; [vm_compute; discriminate|].
  exists "height", (Put plan 7 "height" (VInt 7)). split; [repeat split; discriminate || reflexivity|]. split; [reflexivity|vm_compute; discriminate].
Qed.
Print Assumptions C88_hidden_refuted.
(** an edge in a part in a group *)
Example C88_nested_example : isPartOf part = true /\ SetGlobal isPartOf plan (Child edge (Child part (Child (mkElem None 6 None None) (Root doc)))) "side__length" (VInt 9) = Panic /\
  SetGlobal isPartOf plan (Child edge (Child part (Root doc))) "side__length" (VInt 9) <> Panic.
Proof. split; [reflexivity|]. split; [apply (C88_nested_refuted isPartOf plan line edge part (mkElem None 6 None None) [] (Root doc)); [reflexivity|intros ? []]|discriminate]. Qed.

(** A variable whose name goes through a value that is no map is dropped without a word, by both. *)
Lemma dots_blocked h a k r w v : dotFree k = true -> r <> [] -> lookup k (hcell h a) = Some w -> (forall b, w <> VMap b) -> (forall l, w <> VStrMap l) -> putDots h a (k :: r) v = Err.
Proof. intros D NR E N1 N2. destruct r as [|k2 r]; [contradiction|]. cbn [putDots]. rewrite E. destruct w; try reflexivity; [destruct (N1 a0 eq_refl)|destruct (N2 l eq_refl)]. Qed.
Theorem C88_dropped_refuted isPart h r d es e k rest w v : dotFree k = true -> (forall b, w <> VMap b) -> (forall l, w <> VStrMap l) ->
  (lookup k (hcell h (e_orig e)) = Some w -> SetLocal h e (k ++ "." ++ rest) v = h) /\
  (e_doc r = Some d -> flat isPart (tl es) -> lookup k (hcell h d) = Some w -> SetGlobal isPart h (within es (Root r)) (k ++ "." ++ rest) v = Ok h).
Proof.
  intros D N1 N2. assert (P : forall a, lookup k (hcell h a) = Some w -> PutWithDot h a (k ++ "." ++ rest) v = Err).
  { intros a E. unfold PutWithDot. rewrite splitDots_app by exact D. pose proof (splitDots_nonempty rest) as NR. pose proof (dots_blocked h a k (splitDots rest) w v D NR E N1 N2) as B. destruct (splitDots rest); [contradiction|exact B]. }
  split.
  - intros E. unfold SetLocal. rewrite (P _ E). reflexivity.
  - intros DR F E. unfold SetGlobal. assert (C : (match within es (Root r) with Root e0 => Ok (e_doc e0) | Child _ parent => findContext isPart parent | Orphan _ => Ok None end) = Ok (Some d)).
    { destruct es as [|x es]; cbn [within fold_right]; [rewrite DR; reflexivity|]. apply (context_flat isPart r d DR es F). }
    rewrite C. cbn [bind]. rewrite (P _ E). reflexivity.
Qed.
Example C88_dropped_ex : SetLocal plan edge "type.size" (VInt 1) = plan /\ lookup "type" (hcell plan (e_orig edge)) = Some (VStr "edge").
Proof. split; [|reflexivity]. apply (C88_dropped_refuted isPartOf plan doc 7 [] edge "type" "size" (VStr "edge") (VInt 1)); try discriminate; reflexivity. Qed.
(** A component in a part without a document cannot set a global variable. *)
Theorem C88_loose_refuted isPart h e p r es k v : isPart p = true -> e_doc r = None -> (forall x, In x es -> isPart x = false) -> SetGlobal isPart h (Child e (within es (Child p (Root r)))) k v = Panic.
Proof.
  intros P DR NP. unfold SetGlobal. replace (findContext isPart (within es (Child p (Root r)))) with (@Panic (option nat)); [reflexivity|]. symmetry. induction es as [|x es IH]; cbn [within fold_right findContext]; [rewrite P, DR; reflexivity|]. rewrite (NP x) by (left; reflexivity). apply IH. intros y I. apply NP. right. exact I.
Qed.
Example C88_loose_ex : SetGlobal isPartOf plan (Child edge (Child part (Root (mkElem None 0 None None)))) "width" (VInt 9) = Panic. Proof. reflexivity. Qed.
Print Assumptions C88_dropped_refuted. Print Assumptions C88_loose_refuted.
