(** C32: inner definitions shadow outer ones. *)
From Coq Require Import String List ZArith Bool Arith Lia.
From Verif Require Import Num DynModel ParamModel Prop_C31.
Import ListNotations.
Local Open Scope string_scope.
Local Open Scope list_scope.

(** *** what an element defines *)
(** the first of several maps that has the name *)
Inductive finds (h : heap) : list (list (string * val)) -> string -> val -> Prop :=
| finds_here l r p v : mapGet h l p = Some v -> finds h (l :: r) p v
| finds_later l r p v : mapGet h l p = None -> finds h r p v -> finds h (l :: r) p v.
(** a map with an entry "value" stands for that entry *)
Inductive stands (h : heap) : val -> val -> Prop :=
| stands_plain v : entries h v = None -> stands h v v
| stands_map v l : entries h v = Some l -> mapGet h l "value" = None -> stands h v v
| stands_value v l w : entries h v = Some l -> mapGet h l "value" = Some w -> stands h v w.
(** the params of an element, its attributes, the parameters of the document *)
Definition maps (h : heap) (e : elem) : list (list (string * val)) :=
  [Params h e; hcell h (e_orig e)] ++ match e_doc e with Some d => [hcell h d] | None => [] end.
Definition defines (h : heap) (e : elem) (p : string) (v : val) : Prop := exists w, finds h (maps h e) p w /\ stands h w v.
Definition silent (h : heap) (e : elem) (p : string) : Prop := forall v, ~ defines h e p v.

(** what a name stands for within one element, after [n] names that stand for names *)
Inductive means (h : heap) (e : elem) : nat -> string -> val -> Prop :=
| means_value p v : defines h e p v -> (forall s, v <> VStr s) -> means h e 0 p v
| means_text p s : defines h e p (VStr s) -> silent h e s -> means h e 0 p (VStr s)
| means_more n p s v : defines h e p (VStr s) -> means h e n s v -> means h e (S n) p v.

Lemma stands_iff h w v : stands h w v <-> v = match entries h w with Some l => match mapGet h l "value" with Some u => u | None => w end | None => w end.
Proof.
  split.
  - intros [u H|u l H H2|u l x H H2]; rewrite H; auto; rewrite H2; reflexivity.
  - intros ->. destruct (entries h w) as [l|] eqn:E; [|constructor; auto]. destruct (mapGet h l "value") eqn:E2; [eapply stands_value|eapply stands_map]; eauto.
Qed.
Lemma finds_cons h l r p v : finds h (l :: r) p v -> mapGet h l p = Some v \/ mapGet h l p = None /\ finds h r p v.
Proof. intros H. inversion H; subst; auto. Qed.
Lemma defines_local h e p v : defines h e p v <-> localGet h e p = Some v.
Proof.
  unfold localGet. assert (F : forall w, finds h (maps h e) p w <-> match mapGet h (Params h e) p with
               | Some v => Some v
               | None => match Get h (e_orig e) p with Some v => Some v | None => match e_doc e with Some d => Get h d p | None => None end end end = Some w).
  { intros w. unfold maps. cbn [app]. change (Get h (e_orig e) p) with (mapGet h (hcell h (e_orig e)) p). split.
    - intros H. apply finds_cons in H. destruct H as [H|[H H2]]; rewrite H; [reflexivity|]. apply finds_cons in H2. destruct H2 as [H2|[H2 H3]]; rewrite H2; [reflexivity|].
      destruct (e_doc e) as [d|]; [|inversion H3]. apply finds_cons in H3. destruct H3 as [H3|[_ H3]]; [exact H3|inversion H3].
    - destruct (mapGet h (Params h e) p) eqn:E1; [intros E; injection E as <-; apply finds_here; auto|]. intros E. apply finds_later; auto.
      destruct (mapGet h (hcell h (e_orig e)) p) eqn:E2; [injection E as <-; apply finds_here; auto|]. apply finds_later; auto. destruct (e_doc e); [apply finds_here; exact E|discriminate]. }
  destruct (match mapGet h (Params h e) p with Some v0 => Some v0 | None => _ end) as [w|].
  - split.
    + intros (w' & H1 & H2). apply F in H1. injection H1 as <-. apply stands_iff in H2. subst v. destruct (entries h w) as [l|]; auto. destruct (mapGet h l "value"); auto.
    + intros H. exists w. split; [apply F; reflexivity|]. apply stands_iff. destruct (entries h w) as [l|]; [destruct (mapGet h l "value")|]; injection H as <-; auto.
  - split; [intros (w' & H1 & _); apply F in H1; discriminate|discriminate].
Qed.
Lemma silent_local h e p : silent h e p <-> localGet h e p = None.
Proof.
  split.
  - intros H. destruct (localGet h e p) eqn:E; auto. destruct (H v). apply defines_local. auto.
  - intros H v D. apply defines_local in D. congruence.
Qed.

Lemma local_means h e : forall n p v r fuel, means h e n p v -> n + r <= 19 -> n + 2 <= fuel -> localLookup fuel h e p r = Ok (Some v).
Proof.
  intros n p v r fuel M. revert r fuel. induction M as [p v D NS|p s D S|n p s v D M IH]; intros r [|fuel] Hn Hf; try lia; cbn [localLookup];
    (destruct (Nat.ltb_spec maxRecursion r); [unfold maxRecursion in *; lia|]); apply defines_local in D; rewrite D.
  - destruct v; auto. destruct (NS s eq_refl).
  - destruct fuel as [|fuel]; [lia|]. cbn [localLookup]. destruct (Nat.ltb_spec maxRecursion (Datatypes.S r)); [unfold maxRecursion in *; lia|]. apply silent_local in S. rewrite S. reflexivity.
  - apply IH; lia.
Qed.
Lemma local_silent h e p fuel : silent h e p -> 1 <= fuel -> localLookup fuel h e p 0 = Ok None.
Proof. intros S H. destruct fuel; [lia|]. apply silent_local in S. cbn [localLookup]. rewrite S. reflexivity. Qed.

(** elements [es] inside the element that [c] starts with *)
Definition within (es : list elem) (c : chain) : chain := fold_right Child c es.
Lemma lookup_skips h c p fuel : 1 <= fuel -> forall es, (forall e, In e es -> silent h e p) -> Lookup fuel h (within es c) p = Lookup fuel h c p.
Proof.
  intros F. induction es as [|e es IH]; intros H; [reflexivity|]. cbn [within fold_right Lookup self]. rewrite (local_silent h e p fuel) by (auto; apply H; left; auto). cbn [bind]. apply IH. intros e' I. apply H. right. auto.
Qed.

(** Where the parameters of an element are: in the map stored with it, or, if none is stored or the one stored is empty, in the entry "params"
    of its own map.  What is written there is found before its other attributes. *)
Theorem C32_params h e p v w b : stands h v w -> lookup p (hcell h b) = Some v ->
  e_params e = Some b \/ ((e_params e = None \/ exists b0, e_params e = Some b0 /\ hcell h b0 = []) /\ Get h (e_orig e) "params" = Some (VMap b)) -> defines h e p w.
Proof.
  intros S E H. exists v. split; [|exact S]. apply finds_here. unfold mapGet.
  assert (EP : Params h e = hcell h b).
  { unfold Params, storedOr. destruct H as [H|([H|(b0 & H & H0)] & G)].
    - rewrite H. destruct (hcell h b); [discriminate|reflexivity].
    - rewrite H. unfold mustMap. rewrite G. reflexivity.
    - rewrite H, H0. unfold mustMap. rewrite G. reflexivity. }
  rewrite EP, E. reflexivity.
Qed.
Print Assumptions C32_params.

(** The nearest element that defines a parameter decides: what it stands for there is found, if that is not a text, whatever elements outside define,
    also for a definition that names other parameters of the same element (up to 19 of them). *)
Theorem C32_nearest h es c p v n fuel : (forall e, In e es -> silent h e p) -> means h (self c) n p v -> (forall s, v <> VStr s) -> n <= 19 -> 22 <= fuel ->
  Lookup fuel h (within es c) p = Ok (Some v).
Proof.
  intros HS M NS Hn Hf. rewrite lookup_skips by (auto; lia). destruct c; cbn [Lookup self] in *; rewrite (local_means h _ n p v 0 fuel M) by lia; cbn [bind]; destruct v; auto; destruct (NS s eq_refl).
Qed.
Print Assumptions C32_nearest.
(** A text that the element does not define is looked up in the elements outside, and stands for itself if they do not define it. *)
Theorem C32_text h es e par p s n fuel : (forall e, In e es -> silent h e p) -> means h e n p (VStr s) -> n <= 19 -> 22 <= fuel -> rooted par ->
  (exists v, Lookup fuel h par s = Ok (Some v) /\ Lookup fuel h (within es (Child e par)) p = Ok (Some v)) \/
  (Lookup fuel h par s = Ok None /\ Lookup fuel h (within es (Child e par)) p = Ok (Some (VStr s))).
Proof.
  intros HS M Hn Hf R. rewrite lookup_skips by (auto; lia). cbn [Lookup self]. rewrite (local_means h e n p (VStr s) 0 fuel M) by lia. cbn [bind].
  destruct (C31_lookup h par s R) as (o & Ho). rewrite Ho by auto. destruct o as [v|]; [left; exists v|right]; auto.
Qed.
Print Assumptions C32_text.
Theorem C32_outermost_text h es e p s n fuel : (forall e, In e es -> silent h e p) -> means h e n p (VStr s) -> n <= 19 -> 22 <= fuel ->
  Lookup fuel h (within es (Root e)) p = Ok (Some (VStr s)).
Proof. intros HS M Hn Hf. rewrite lookup_skips by (auto; lia). cbn [Lookup self]. rewrite (local_means h e n p (VStr s) 0 fuel M) by lia. reflexivity. Qed.
(** A text that no element outside defines. *)
Theorem C32_own_text h es e es' e' p s n fuel : (forall e, In e es -> silent h e p) -> means h e n p (VStr s) -> n <= 19 -> (forall e, In e (e' :: es') -> silent h e s) -> 22 <= fuel ->
  Lookup fuel h (within es (Child e (within es' (Root e')))) p = Ok (Some (VStr s)).
Proof.
  intros HS M Hn HS' Hf. rewrite lookup_skips by (auto; lia). cbn [Lookup self]. rewrite (local_means h e n p (VStr s) 0 fuel M) by lia. cbn [bind].
  rewrite lookup_skips by (try lia; intros; apply HS'; right; auto). cbn [Lookup self]. rewrite (local_silent h e' s fuel) by (try lia; apply HS'; left; auto). reflexivity.
Qed.
Print Assumptions C32_own_text.
(** Nothing is found for a parameter that no element defines. *)
Theorem C32_undefined h es e p fuel : (forall e', In e' (e :: es) -> silent h e' p) -> 22 <= fuel -> Lookup fuel h (within es (Root e)) p = Ok None.
Proof.
  intros HS Hf. rewrite lookup_skips by (try lia; intros; apply HS; right; auto). cbn [Lookup self]. rewrite (local_silent h e p fuel) by (try lia; apply HS; left; auto). reflexivity.
Qed.
Print Assumptions C32_undefined.

(** For an attribute: its own map comes first, then the elements, and the defaults only when neither has it. *)
Theorem C32_attribute h b p v fuel : Get h (at_mp b) p = Some v -> (forall s, v <> VStr s) -> 1 <= fuel -> attrLookup fuel h b p 0 = Ok (Some v).
Proof. intros G NS H. destruct fuel as [|f]; [lia|]. cbn [attrLookup]. change (Nat.ltb recursionMax 0) with false. rewrite G. destruct v; auto. destruct (NS s eq_refl). Qed.
Print Assumptions C32_attribute.
Theorem C32_attribute_element h b es c p v n fuel : at_elem b = within es c -> Get h (at_mp b) p = None -> (forall e, In e es -> silent h e p) -> means h (self c) n p v ->
  (forall s, v <> VStr s) -> n <= 19 -> 23 <= fuel -> attrLookup fuel h b p 0 = Ok (Some v).
Proof.
  intros E G HS M NS Hn Hf. destruct fuel as [|f]; [lia|]. cbn [attrLookup]. change (Nat.ltb recursionMax 0) with false. rewrite G. cbn [bind]. rewrite E.
  rewrite (C32_nearest h es c p v n f); auto; lia.
Qed.
Print Assumptions C32_attribute_element.
(** the default of the nearest element that has one *)
Lemma default_nearest h rz p v c : mapGet h (Defaults h (self c)) p = Some v -> (forall s, v <> VStr s) -> (forall r, rz p v r = Ok (Some v)) ->
  forall es r, (forall e, In e es -> mapGet h (Defaults h e) p = None) -> lookupDefault h rz (within es c) p r = Ok (Some v).
Proof.
  intros D NS HR. induction es as [|e es IH]; intros r H.
  - destruct c; cbn [within fold_right lookupDefault self] in *; rewrite D; apply HR.
  - cbn [within fold_right lookupDefault self]. rewrite (H e) by (left; auto). apply IH. intros e' I. apply H. right. auto.
Qed.
Theorem C32_default h b es c p v fuel : at_elem b = within es c -> Get h (at_mp b) p = None -> Lookup 22 h (at_elem b) p = Ok None -> rooted (at_elem b) ->
  (forall e, In e es -> mapGet h (Defaults h e) p = None) -> mapGet h (Defaults h (self c)) p = Some v -> (forall s, v <> VStr s) -> 23 <= fuel ->
  attrLookup fuel h b p 0 = Ok (Some v).
Proof.
  intros E G L R HD D NS Hf. destruct fuel as [|f]; [lia|]. cbn [attrLookup]. change (Nat.ltb recursionMax 0) with false. rewrite G. cbn [bind].
  destruct (C31_lookup h (at_elem b) p R) as (o & Ho). rewrite Ho in L by auto. injection L as ->. rewrite Ho by lia. cbn [bind]. rewrite E.
  apply default_nearest; auto. intros r. destruct v; auto. destruct (NS s eq_refl).
Qed.
Print Assumptions C32_default.

(** *** examples *)
(** a drawing, a group in it, a shape in the group; the parameters of the group are in "params", one of them a map with its value *)
Definition drawing : heap := mkHeap 8 (fun a => match a with
  | 0 => [("params", VMap 1); ("title", VStr "sheet")]
  | 1 => [("width", VInt 3); ("depth", VInt 9); ("sheet", VInt 4)]
  | 2 => [("id", VStr "group"); ("params", VMap 3); ("defaults", VMap 5)]
  | 3 => [("width", VStr "side"); ("side", VMap 4); ("name", VStr "depth")]
  | 4 => [("type", VStr "float"); ("value", VInt 7)]
  | 5 => [("gap", VInt 2)]
  | 6 => [("shape", VStr "square")]
  | _ => [] end).
Definition shape : elem := mkElem None 6 None None.
Definition group : elem := mkElem (Some 3) 2 None None.
Definition page : elem := mkElem None 0 None (Some 7).
Lemma shape_silent p : String.eqb p "shape" = false -> splitDots p = [p] -> silent drawing shape p.
Proof. intros E S. apply silent_local. unfold localGet, Params, storedOr. cbn. unfold mapGet. cbn. rewrite S. unfold Get. cbn. rewrite E, S. reflexivity. Qed.
Example C32_nearest_example : (forall e, In e [shape] -> silent drawing e "width") /\ means drawing (self (Child group (Root page))) 1 "width" (VInt 7) /\
  defines drawing page "width" (VInt 3) /\ Lookup 22 drawing (within [shape] (Child group (Root page))) "width" = Ok (Some (VInt 7)).
Proof.
  split; [|split; [|split]].
  - intros e [<-|[]]. apply shape_silent; reflexivity.
  - apply (means_more _ _ 0 "width" "side"); [apply defines_local; reflexivity|]. apply means_value; [apply defines_local; reflexivity|discriminate].
  - apply defines_local. reflexivity.
  - reflexivity.
Qed.
(** the group keeps an empty map of parameters and has others in its entry "params" *)
Example C32_params_example : let e := mkElem (Some 7) 2 None None in
  hcell drawing 7 = [] /\ Get drawing (e_orig e) "params" = Some (VMap 3) /\ lookup "side" (hcell drawing 3) = Some (VMap 4) /\ stands drawing (VMap 4) (VInt 7) /\ defines drawing e "side" (VInt 7).
Proof.
  cbn zeta. split; [reflexivity|]. split; [reflexivity|]. split; [reflexivity|].
  assert (S : stands drawing (VMap 4) (VInt 7)) by (apply stands_iff; reflexivity). split; [exact S|].
  apply (C32_params drawing _ "side" (VMap 4) (VInt 7) 3 S eq_refl). right. split; [right; exists 7; split; reflexivity|reflexivity].
Qed.
Example C32_text_example : means drawing page 1 "title" (VInt 4) /\ means drawing shape 0 "shape" (VStr "square") /\ silent drawing group "square" /\ silent drawing page "square" /\
  Lookup 22 drawing (within [] (Child shape (within [group] (Root page)))) "shape" = Ok (Some (VStr "square")).
Proof.
  split; [|split; [|split; [|split]]].
  - apply (means_more _ _ 0 "title" "sheet"); [apply defines_local; reflexivity|]. apply means_value; [apply defines_local; reflexivity|discriminate].
  - apply means_text; [apply defines_local; reflexivity|]. apply shape_silent; reflexivity.
  - apply silent_local. reflexivity.
  - apply silent_local. reflexivity.
  - reflexivity.
Qed.
Example C32_default_example : let b := mkAttr (within [shape] (Child group (Root page))) 6 in
  Get drawing 6 "gap" = None /\ Lookup 22 drawing (at_elem b) "gap" = Ok None /\ rooted (at_elem b) /\ mapGet drawing (Defaults drawing shape) "gap" = None /\
  mapGet drawing (Defaults drawing group) "gap" = Some (VInt 2) /\ attrLookup 23 drawing b "gap" 0 = Ok (Some (VInt 2)) /\ attrLookup 23 drawing b "width" 0 = Ok (Some (VInt 7)).
Proof. repeat split; reflexivity. Qed.

(** *** violations *)
(** A text defined inside is taken for the name of a parameter outside: the group's name is the text "depth", and 9 is found. *)
Theorem C32_capture_refuted : exists h e outer p s v, means h e 0 p (VStr s) /\ defines h outer s v /\ v <> VStr s /\ Lookup 22 h (Child e (Root outer)) p = Ok (Some v).
Proof.
  exists drawing, group, page, "name", "depth", (VInt 9). split; [|split; [|split]].
  - apply means_text; [apply defines_local; reflexivity|apply silent_local; reflexivity].
  - apply defines_local. reflexivity.
  - discriminate.
  - reflexivity.
Qed.
Print Assumptions C32_capture_refuted.
(** A definition inside that leads back to itself gives way to the one outside. *)
Definition loops : heap := mkHeap 2 (fun a => match a with 0 => [("w", VStr "w")] | 1 => [("w", VInt 3)] | _ => [] end).
Theorem C32_cycle_refuted : exists h e outer p v, defines h e p (VStr p) /\ defines h outer p v /\ Lookup 22 h (Child e (Root outer)) p = Ok (Some v).
Proof.
  exists loops, (mkElem None 0 None None), (mkElem None 1 None None), "w", (VInt 3). split; [|split].
  - apply defines_local. reflexivity.
  - apply defines_local. reflexivity.
  - reflexivity.
Qed.
Print Assumptions C32_cycle_refuted.
(** A chain of more than 20 names inside gives way to the outer definition, although it ends in a number. *)
Fixpoint ladder (n : nat) (p : string) : list (string * val) :=
  match n with O => [(p, VInt 5)] | S k => (p, VStr (p ++ "i")) :: ladder k (p ++ "i") end.
Definition steep : heap := mkHeap 2 (fun a => match a with 0 => ladder 21 "p" | 1 => [("p", VInt 7)] | _ => [] end).
Theorem C32_long_refuted : exists h e outer p v w, means h e 21 p v /\ (forall s, v <> VStr s) /\ defines h outer p w /\ v <> w /\ Lookup 22 h (Child e (Root outer)) p = Ok (Some w).
Proof.
  exists steep, (mkElem None 0 None None), (mkElem None 1 None None), "p", (VInt 5), (VInt 7). split; [|split; [discriminate|split; [apply defines_local; reflexivity|split; [discriminate|reflexivity]]]].
  do 21 (eapply means_more; [apply defines_local; reflexivity|]). apply means_value; [apply defines_local; reflexivity|discriminate].
Qed.
Print Assumptions C32_long_refuted.
