(** C74: the elements of a document are found by their id. *)
From Coq Require Import String Ascii List ZArith Bool Lia.
From Verif Require Import Num DynModel DynProofs Components Docs DocsProofs.
From Verif Require Prop_C72.
Import ListNotations.
Local Open Scope string_scope.
Local Open Scope list_scope.
Import Prop_C72.

(** *** trimming *)
(** any number of "@" *)
Inductive ats : string -> Prop := ats_nil : ats "" | ats_cons s : ats s -> ats (String "@" s).
(** a text that neither starts nor ends with "@" *)
Definition bare (s : string) : Prop := (forall r, s <> String "@" r) /\ forall r, s <> (r ++ "@")%string.

Lemma app_nil_str s : (s ++ "")%string = s. Proof. induction s as [|c s IH]; cbn; congruence. Qed.
Lemma app_assoc_str a b c : (a ++ (b ++ c) = (a ++ b) ++ c)%string. Proof. induction a as [|x a IH]; cbn; congruence. Qed.
Lemma rev_str_app s acc : rev_str s acc = (rev_str s "" ++ acc)%string.
Proof. revert acc. induction s as [|c s IH]; intros acc; cbn [rev_str]; [reflexivity|]. rewrite IH, (IH (String c "")), <- app_assoc_str. reflexivity. Qed.
Lemma rev_cons c s : rev_str (String c s) "" = (rev_str s "" ++ String c "")%string.
Proof. cbn [rev_str]. apply rev_str_app. Qed.
Lemma rev_app a b : rev_str (a ++ b)%string "" = (rev_str b "" ++ rev_str a "")%string.
Proof. induction a as [|c a IH]; cbn [append]; [cbn; rewrite app_nil_str; reflexivity|]. rewrite !rev_cons, IH, app_assoc_str. reflexivity. Qed.
Lemma rev_rev s : rev_str (rev_str s "") "" = s.
Proof. induction s as [|c s IH]; [reflexivity|]. rewrite rev_cons, rev_app, IH. reflexivity. Qed.
Lemma ats_rev s : ats s -> ats (rev_str s "").
Proof.
  assert (G : forall s, ats s -> ats (s ++ "@")%string) by (induction 1; cbn; repeat constructor; assumption).
  induction 1 as [|s H IH]; [constructor|]. rewrite rev_cons. apply G, IH.
Qed.
Lemma trimLeft_ats a s : ats a -> trimLeft (a ++ s)%string = trimLeft s.
Proof. induction 1 as [|a H IH]; [reflexivity|]. cbn [append trimLeft]. rewrite Ascii.eqb_refl. exact IH. Qed.
Lemma trimLeft_id s : (forall r, s <> String "@" r) -> trimLeft s = s.
Proof. destruct s as [|c s]; intros H; [reflexivity|]. cbn [trimLeft]. destruct (Ascii.eqb_spec c "@"); [subst; exfalso; apply (H s); reflexivity|reflexivity]. Qed.
Lemma trimLeft_head s : forall r, trimLeft s <> String "@" r.
Proof. induction s as [|c s IH]; intros r; cbn [trimLeft]; [discriminate|]. destruct (Ascii.eqb_spec c "@") as [->|N]; [apply IH|]. intros [= E]. contradiction. Qed.
Lemma trimLeft_split s : exists a, ats a /\ s = (a ++ trimLeft s)%string.
Proof.
  induction s as [|c s (a & HA & E)]; [exists ""; split; [constructor|reflexivity]|]. cbn [trimLeft]. destruct (Ascii.eqb_spec c "@") as [->|N].
  - exists (String "@" a). split; [constructor; exact HA|]. cbn [append]. f_equal. exact E.
  - exists "". split; [constructor|reflexivity].
Qed.
Lemma bare_rev s : (forall r, s <> (r ++ "@")%string) -> forall r, rev_str s "" <> String "@" r.
Proof. intros H r E. apply (H (rev_str r "")). rewrite <- (rev_rev s), E, rev_cons. reflexivity. Qed.

Lemma trimAt_spec a s b : ats a -> ats b -> bare s -> trimAt (a ++ s ++ b)%string = s.
Proof.
  intros HA HB [H1 H2]. unfold trimAt. rewrite trimLeft_ats by exact HA. destruct s as [|c s].
  - cbn [append]. rewrite <- (app_nil_str b), trimLeft_ats by exact HB. reflexivity.
  - rewrite (trimLeft_id (String c s ++ b)%string) by (intros r E; injection E as -> _; apply (H1 s); reflexivity). rewrite rev_app, trimLeft_ats by (apply ats_rev, HB).
    rewrite trimLeft_id by (apply bare_rev, H2). apply rev_rev.
Qed.
Lemma trimAt_bare s : bare (trimAt s).
Proof.
  unfold trimAt. destruct (trimLeft_split (rev_str (trimLeft s) "")) as (a & HA & E). assert (E' : trimLeft s = (rev_str (trimLeft (rev_str (trimLeft s) "")) "" ++ rev_str a "")%string).
  { rewrite <- rev_app, <- E. symmetry. apply rev_rev. }
  split; intros r EQ.
  - rewrite EQ in E'. apply (trimLeft_head s (r ++ rev_str a "")%string). rewrite E'. reflexivity.
  - apply (trimLeft_head (rev_str (trimLeft s) "") (rev_str r "")). rewrite <- (rev_rev (trimLeft _)), EQ, rev_app. reflexivity.
Qed.
Lemma trimAt_split s : exists a b, ats a /\ ats b /\ s = (a ++ trimAt s ++ b)%string.
Proof.
  destruct (trimLeft_split s) as (a & HA & E1). destruct (trimLeft_split (rev_str (trimLeft s) "")) as (b & HB & E2). exists a, (rev_str b ""). split; [exact HA|]. split; [apply ats_rev, HB|].
  unfold trimAt. rewrite <- rev_app, <- E2, rev_rev. exact E1.
Qed.

Section Find.
Variable show : json -> string.
Variable hash : obj -> string.
Variable files : string -> option obj.
Variable svgs : string -> option string.
Variable shuffle : list comp -> list comp.
Notation Parse := (Parse show hash files svgs shuffle).

(** An element, at whatever depth, whose id no other has and that neither starts nor ends with "@", is found by it, also if "@" are put around it. *)
Theorem C74_found fuel dm D e a b : Parse fuel dm = Ok D -> element D e -> (forall e', element D e' -> cid e' = cid e -> e' = e) -> bare (cid e) -> ats a -> ats b ->
  FindElementByID D (a ++ cid e ++ b)%string = Some e.
Proof.
  intros H HE HU HB HA HB2. unfold FindElementByID. rewrite trimAt_spec, (Parse_elems _ _ _ _ _ _ _ _ H) by assumption. destruct (populateAll_spec (d_parts D)) as [P1 P2]. destruct HE as (p & HI & HL).
  destruct (lookup (cid e) (populateAll (d_parts D))) as [e'|] eqn:E; [|exfalso; apply (P2 p e HI HL), E]. destruct (P1 _ _ E) as [E1 (p' & HI' & HL')]. f_equal. apply HU; [exists p'; auto|exact E1].
Qed.
(** What is found is an element of the document with that id; nothing is found only if there is none. *)
Theorem C74_only fuel dm D id : Parse fuel dm = Ok D ->
  (forall e, FindElementByID D id = Some e -> element D e /\ exists a b, ats a /\ ats b /\ id = (a ++ cid e ++ b)%string) /\
  (FindElementByID D id = None -> forall e a b, element D e -> ats a -> ats b -> bare (cid e) -> id <> (a ++ cid e ++ b)%string).
Proof.
  intros H. unfold FindElementByID. rewrite (Parse_elems _ _ _ _ _ _ _ _ H). destruct (populateAll_spec (d_parts D)) as [P1 P2]. split.
  - intros e E. destruct (P1 _ _ E) as [E1 (p & HI & HL)]. split; [exists p; auto|]. destruct (trimAt_split id) as (a & b & HA & HB & EQ). exists a, b. rewrite E1. auto.
  - intros E e a b (p & HI & HL) HA HB HC ->. rewrite trimAt_spec in E by assumption. exact (P2 p e HI HL E).
Qed.
(** A part is found by its id alone among the parts: the first with that id. *)
Theorem C74_part D id : (forall p, FindPartByID D id = Some p -> exists l r, d_parts D = l ++ p :: r /\ (exists a b, ats a /\ ats b /\ id = (a ++ cid p ++ b)%string) /\ forall q, In q l -> cid q <> cid p) /\
  (FindPartByID D id = None -> forall p a b, In p (d_parts D) -> ats a -> ats b -> bare (cid p) -> id <> (a ++ cid p ++ b)%string).
Proof.
  unfold FindPartByID. split.
  - intros p E. assert (G : exists l r, d_parts D = l ++ p :: r /\ cid p = trimAt id /\ forall q, In q l -> cid q <> trimAt id).
    { induction (d_parts D) as [|q ps IH]; cbn [find] in E; [discriminate|]. destruct (String.eqb_spec (cid q) (trimAt id)) as [EQ|N]; [injection E as ->; exists [], ps; split; [reflexivity|]; split; [exact EQ|intros q []]|].
      destruct (IH E) as (l & r & -> & E1 & E2). exists (q :: l), r. split; [reflexivity|]. split; [exact E1|]. intros x [<-|Hx]; auto. }
    destruct G as (l & r & E1 & E2 & E3). exists l, r. split; [exact E1|]. split; [|rewrite E2; exact E3]. destruct (trimAt_split id) as (a & b & HA & HB & EQ). exists a, b. rewrite E2. auto.
  - intros E p a b HI HA HB HC ->. rewrite trimAt_spec in E by assumption. apply (find_none _ _ E) in HI. rewrite String.eqb_refl in HI. discriminate.
Qed.
(** An element whose id starts or ends with "@" is not found by any id. *)
Theorem C74_at_refuted fuel dm D e id : Parse fuel dm = Ok D -> ~ bare (cid e) -> FindElementByID D id <> Some e /\ FindPartByID D id <> Some e.
Proof.
  intros H HN. split; intros E; apply HN.
  - unfold FindElementByID in E. rewrite (Parse_elems _ _ _ _ _ _ _ _ H) in E. destruct (populateAll_spec (d_parts D)) as [P1 _]. destruct (P1 _ _ E) as [-> _]. apply trimAt_bare.
  - unfold FindPartByID in E. apply find_some in E. destruct E as [_ E]. apply String.eqb_eq in E. rewrite E. apply trimAt_bare.
Qed.
End Find.

(** *** Examples *)
Definition group74 : obj := [("type", JStr "group"); ("id", JStr "g"); ("components", JArr [JObj [("type", JStr "draw"); ("id", JStr "d")]])].
Definition doc74 : obj := [("parts", JArr [JObj [("id", JStr "p"); ("components", JArr [JObj group74])]; JObj [("id", JStr "q")]])].
Example C74_found_example : exists D e, parse72 [] (fun l => l) 9 doc74 = Ok D /\ element D e /\ ctype e = "draw" /\ (forall e', element D e' -> cid e' = cid e -> e' = e) /\ bare (cid e) /\ FindElementByID D "@@d@" = Some e /\
  FindElementByID D "x" = None /\ option_map ctype (FindPartByID D "@q") = Some "part" /\ FindPartByID D "d" = None.
Proof.
  eexists. eexists. split; [reflexivity|]. split; [eexists; split; [left; reflexivity|]; eapply below_kid; [left; reflexivity|]; eapply below_kid; [left; reflexivity|]; apply below_self|]. split; [reflexivity|]. split; [|split; [|repeat split]].
  - intros e' (p & HI & HL) E. cbn in HI. destruct HI as [<-|[<-|[]]].
    + inversion HL as [|? ? ? HK HL1]; subst; [discriminate E|]. cbn in HK. destruct HK as [<-|[]]. inversion HL1 as [|? ? ? HK HL2]; subst; [discriminate E|]. cbn in HK. destruct HK as [<-|[]]. inversion HL2 as [|? ? ? HK HL3]; subst; [reflexivity|destruct HK].
    + inversion HL as [|? ? ? HK HL1]; subst; [discriminate E|destruct HK].
  - split; intros r E; [discriminate|]. cbn in E. destruct r as [|c [|c' r]]; discriminate E.
Qed.
Example C74_at_example : match parse72 [] (fun l => l) 9 [("parts", JArr [JObj [("id", JStr "@p")]])] with Ok D => map cid (d_parts D) | _ => [] end = ["@p"] /\ ~ bare "@p".
Proof. split; [reflexivity|]. intros [H _]. apply (H "p"). reflexivity. Qed.

(** The uses of a custom component with an id all have that id, and only one of them is found; so for components written alike (here: without an id), whatever the hash. *)
Definition uses74 (us : list obj) : obj := [("imports", JArr [JObj [("path", JStr "legs")]]); ("parts", JArr [JObj [("id", JStr "p"); ("components", JArr (map JObj us))]])].
Definition legs74 : obj := [("parts", JArr [JObj [("id", JStr "a"); ("components", JArr [JObj [("type", JStr "draw"); ("id", JStr "leg"); ("custom_component", JObj [("type", JStr "leg")])]])]])].
Theorem C74_same_refuted hash shuffle :
  (exists D e1 e2, Parse noShow hash (dir [("legs", legs74)]) noSvg (fun l => l) 9 (uses74 [[("type", JStr "leg"); ("length", JOther 1)]; [("type", JStr "leg"); ("length", JOther 2)]]) = Ok D /\
    element D e1 /\ element D e2 /\ cid e1 = cid e2 /\ cmap e1 <> cmap e2 /\ forall id, FindElementByID D id <> Some e1) /\
  (* three components, written alike, of which one is kept *)
  (exists D, Parse noShow hash (dir []) noSvg shuffle 9 [("parts", JArr [JObj [("id", JStr "p"); ("components", JArr [JObj [("type", JStr "draw")]; JObj [("type", JStr "draw")]; JObj [("type", JStr "draw")]])]])] = Ok D /\
    (List.length (d_elems D) <= 2)%nat).
Proof.
  split.
  - eexists. eexists. eexists. split; [vm_compute; reflexivity|]. split; [eexists; split; [left; reflexivity|eapply below_kid; [left; reflexivity|apply below_self]]|]. split; [eexists; split; [left; reflexivity|eapply below_kid; [right; left; reflexivity|apply below_self]]|].
    split; [reflexivity|]. split; [discriminate|]. intros id. unfold FindElementByID. cbn. intros E. repeat match type of E with (if ?b then _ else _) = _ => destruct b; [discriminate E|] end. discriminate E.
  - eexists. split; [reflexivity|]. cbn. generalize (hash [("type", JStr "draw")]). intros h. destruct (String.eqb_spec h "p") as [->|N]; [cbn; lia|]. apply String.eqb_neq in N. cbn [set lookup]. rewrite ?N, ?String.eqb_refl. cbn [set]. rewrite ?N, ?String.eqb_refl. cbn. lia.
Qed.
