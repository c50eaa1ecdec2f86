(** C73: components are made from their types. *)
From Coq Require Import String Ascii List ZArith Bool Permutation Lia.
From Verif Require Import Num DynModel DynProofs Components Docs DocsProofs.
From Verif Require Prop_C72.
Import ListNotations.
Local Open Scope string_scope.
Local Open Scope list_scope.
Import Prop_C72.

Section Make.
Variable show : json -> string.
Variable hash : obj -> string.
Notation Make := (Make show hash).
Notation getStr := (getStr show).
Notation instance := (instance show).

(** the definitions a component is made of: those of its children, and what a custom type stands for *)
Inductive child (cs : list (string * obj)) : obj -> obj -> Prop :=
| child_list ty dm o : getStr dm "type" = Some ty -> In ty ["part"; "group"; "basic_edge"] -> In o (objs dm "components") -> child cs o dm
| child_key ty dm k : getStr dm "type" = Some ty -> In (ty, k) [("repeat", "component"); ("repeat_edge", "repeatable"); ("repeat_edge", "left"); ("repeat_edge", "right"); ("xintercept", "repeatable"); ("xintercept", "outline"); ("around", "repeatable")] ->
    child cs (objAt dm k) dm
| child_custom ty dm d : getStr dm "type" = Some ty -> ~ In ty builtin -> lookup ty cs = Some d -> child cs (instance d dm) dm.
Inductive reaches (cs : list (string * obj)) : obj -> obj -> Prop :=
| reaches_self dm : reaches cs dm dm
| reaches_child dm o x : child cs o dm -> reaches cs o x -> reaches cs dm x.
(** the type has a factory or is a custom one *)
Definition known (cs : list (string * obj)) (dm : obj) : Prop := exists ty, getStr dm "type" = Some ty /\ (In ty builtin \/ lookup ty cs <> None).

Lemma builtin_in ty : existsb (String.eqb ty) builtin = true <-> In ty builtin.
Proof. rewrite existsb_exists. split; [intros (x & H & E); apply String.eqb_eq in E; subst; exact H|intros H; exists ty; split; [exact H|apply String.eqb_refl]]. Qed.
Lemma each_ok {A B} (f : A -> res B) l r : each f l = Ok r -> forall a, In a l -> exists b, f a = Ok b.
Proof.
  revert r. induction l as [|x l IH]; intros r H a HI; [destruct HI|]. cbn [each] in H. destruct (f x) as [b| | |] eqn:E; try discriminate. cbn [bind] in H. destruct (each f l) as [bs| | |] eqn:E2; try discriminate. destruct HI as [<-|HI]; [eauto|eapply IH; eauto].
Qed.
Lemma ok_each {A B} (f : A -> res B) l : (forall a, In a l -> exists b, f a = Ok b) -> exists r, each f l = Ok r.
Proof.
  induction l as [|x l IH]; intros H; cbn [each]; [eauto|]. destruct (H x (or_introl eq_refl)) as (b & ->). destruct IH as (r & ->); [intros a Ha; apply H; right; exact Ha|]. cbn [bind]. eauto.
Qed.
(** the children a factory makes *)
Definition parts_of (ty : string) (dm : obj) : list obj := if String.eqb ty "part" || String.eqb ty "group" || String.eqb ty "basic_edge" then objs dm "components" else map (objAt dm) (singles ty).
Lemma objs_type v dm : objs (set "type" v dm) "components" = objs dm "components".
Proof. apply objs_lookup; [reflexivity|]. apply lookup_set_other. discriminate. Qed.
Lemma each_map {A B C} (f : B -> res C) (g : A -> B) l : each f (map g l) = each (fun a => f (g a)) l.
Proof. induction l as [|a l IH]; cbn [map each]; [reflexivity|]. rewrite IH. reflexivity. Qed.
(** a factory makes its children, in order, and a component whose children they are *)
Lemma create_kids ty dm : exists k, (forall rec, create show hash rec ty dm = bind (each rec (parts_of ty dm)) (fun kids => Ok (k kids))) /\ forall kids, ckids (k kids) = kids.
Proof.
  unfold create, parts_of. destruct (String.eqb_spec ty "part") as [->|N1]; cbn [orb].
  - destruct (jget dm "type") as [v|]; [|rewrite objs_type]; eexists; (split; [reflexivity|reflexivity]).
  - destruct (String.eqb_spec ty "group") as [->|N2]; cbn [orb]; [eexists; split; [reflexivity|reflexivity]|]. destruct (String.eqb_spec ty "basic_edge") as [->|N3]; [eexists; split; [reflexivity|reflexivity]|].
    destruct (String.eqb_spec ty "repeat") as [->|N4].
    + exists (fun kids => Comp (mustStr show dm "type" "") (idOf show hash dm) dm kids). split; [|reflexivity]. change (singles "repeat") with ["component"]. cbn [map each]. intros rec. destruct (rec (objAt dm "component")); reflexivity.
    + eexists. split; [intros rec; rewrite each_map; reflexivity|reflexivity].
Qed.
Lemma parts_child cs ty dm : getStr dm "type" = Some ty -> In ty builtin -> forall o, child cs o dm <-> In o (parts_of ty dm).
Proof.
  intros E HB o. split.
  - intros H. inversion H as [ty' dm' o' E' HI HO|ty' dm' k E' HI|ty' dm' d E' HN HL]; subst; assert (ty' = ty) by congruence; subst ty'; [| |contradiction].
    + unfold parts_of. cbn [In] in HI. destruct HI as [<-|[<-|[<-|[]]]]; exact HO.
    + unfold parts_of. cbn [In] in HI. repeat destruct HI as [HI|HI]; try contradiction; injection HI as <- <-; cbn [String.eqb Ascii.eqb Bool.eqb orb]; apply in_map; unfold singles; cbn; auto.
  - unfold parts_of. intros H. cbn [In builtin] in HB. repeat destruct HB as [HB|HB]; try contradiction; subst ty; cbn [String.eqb Ascii.eqb Bool.eqb orb] in H.
    all: try (eapply child_list; [exact E|cbn [In]; tauto|exact H]).
    all: cbn in H; repeat destruct H as [H|H]; try contradiction; subst o; (eapply child_key; [exact E|cbn [In]; tauto]).
Qed.

Lemma Make_mono fuel : forall cs dm c, Make fuel cs dm = Ok c -> forall n, (fuel <= n)%nat -> Make n cs dm = Ok c.
Proof.
  induction fuel as [|f IH]; intros cs dm c H n Hn; [discriminate|]. destruct n as [|n]; [lia|]. cbn [Docs.Make] in *. destruct (getStr dm "type") as [ty|]; [|discriminate]. destruct (existsb (String.eqb ty) builtin).
  - assert (HE : forall l r, each (Make f cs) l = Ok r -> each (Make n cs) l = Ok r).
    { induction l as [|o l IL]; intros r Hr; cbn [each] in *; [exact Hr|]. destruct (Make f cs o) as [b| | |] eqn:E; try discriminate. rewrite (IH _ _ _ E n) by lia. cbn [bind] in *. destruct (each (Make f cs) l) as [bs| | |]; try discriminate. rewrite (IL bs eq_refl). exact Hr. }
    destruct (create_kids ty dm) as (k & E & _). rewrite E in *. destruct (each (Make f cs) (parts_of ty dm)) as [r| | |] eqn:ER; try discriminate. rewrite (HE _ _ ER). exact H.
  - destruct (lookup ty cs); [|discriminate]. apply (IH _ _ _ H). lia.
Qed.

(** If all it is made of has a known type a component is made, and it is the same however long making it may take; *)
Theorem C73_known cs dm : Acc (child cs) dm -> (forall x, reaches cs dm x -> known cs x) -> exists n c, forall fuel, (n <= fuel)%nat -> Make fuel cs dm = Ok c.
Proof.
  intros A K. enough (E : exists n c, Make n cs dm = Ok c) by (destruct E as (n & c & E); exists n, c; intros fuel Hf; eapply Make_mono; eauto).
  induction A as [dm _ IH]. destruct (K dm (reaches_self _ _)) as (ty & E & HT). destruct (in_dec string_dec ty builtin) as [HB|HB].
  - assert (Q : exists n, forall o, In o (parts_of ty dm) -> exists c, Make n cs o = Ok c).
    { assert (Q : forall o, In o (parts_of ty dm) -> exists n c, Make n cs o = Ok c).
      { intros o Ho. apply (parts_child cs ty dm E HB) in Ho. apply IH; [exact Ho|]. intros x Hx. apply K. eapply reaches_child; eauto. }
      clear -Q. induction (parts_of ty dm) as [|o l IL]; [exists 0%nat; intros o []|]. destruct (Q o (or_introl eq_refl)) as (n1 & c1 & H1). destruct IL as (n2 & H2); [intros x Hx; apply Q; right; exact Hx|].
      exists (max n1 n2). intros x [<-|Hx]; [exists c1; eapply Make_mono; [exact H1|lia]|]. destruct (H2 x Hx) as (c & Hc). exists c. eapply Make_mono; [exact Hc|lia]. }
    destruct Q as (n & Hn). exists (S n). cbn [Docs.Make]. rewrite E, (proj2 (builtin_in ty) HB). destruct (create_kids ty dm) as (k & -> & _). destruct (ok_each _ _ Hn) as (r & ->). cbn [bind]. eauto.
  - destruct HT as [HT|HT]; [contradiction|]. destruct (lookup ty cs) as [d|] eqn:EL; [|contradiction]. assert (HC : child cs (instance d dm) dm) by (eapply child_custom; eauto).
    destruct (IH _ HC) as (n & c & H); [intros x Hx; apply K; eapply reaches_child; eauto|]. exists (S n), c. cbn [Docs.Make]. rewrite E. destruct (existsb (String.eqb ty) builtin) eqn:EB; [apply builtin_in in EB; contradiction|]. rewrite EL. exact H.
Qed.
(** if anything has not, it is not made. *)
Theorem C73_unknown cs dm x : reaches cs dm x -> ~ known cs x -> forall fuel c, Make fuel cs dm <> Ok c.
Proof.
  induction 1 as [dm|dm o x HC HR IH]; intros K fuel c H.
  - destruct fuel as [|f]; [discriminate|]. cbn [Docs.Make] in H. destruct (getStr dm "type") as [ty|] eqn:E; [|discriminate]. destruct (existsb (String.eqb ty) builtin) eqn:EB; [apply K; exists ty; split; [exact E|left; apply builtin_in, EB]|].
    destruct (lookup ty cs) eqn:EL; [|discriminate]. apply K. exists ty. split; [exact E|right; rewrite EL; discriminate].
  - destruct fuel as [|f]; [discriminate|]. cbn [Docs.Make] in H. destruct (getStr dm "type") as [ty|] eqn:E; [|discriminate]. destruct (existsb (String.eqb ty) builtin) eqn:EB.
    + apply builtin_in in EB. apply (parts_child cs ty dm E EB) in HC. destruct (create_kids ty dm) as (k & E2 & _). rewrite E2 in H. destruct (each (Make f cs) (parts_of ty dm)) as [r| | |] eqn:ER; try discriminate. destruct (each_ok _ _ _ ER o HC) as (b & Hb). exact (IH K f b Hb).
    + inversion HC as [ty' dm' o' E' HI HO|ty' dm' k E' HI|ty' dm' d E' HN HL]; subst; assert (ty' = ty) by congruence; subst ty'.
      * apply (Bool.diff_true_false). rewrite <- EB. symmetry. apply builtin_in. cbn [In builtin] in *. intuition (subst; auto 10).
      * apply (Bool.diff_true_false). rewrite <- EB. symmetry. apply builtin_in. cbn [In] in HI. repeat destruct HI as [HI|HI]; try contradiction; injection HI as <- <-; cbn [In builtin]; auto 12.
      * rewrite HL in H. exact (IH K f c H).
Qed.

(** *** what becomes of the map of a component *)
Definition childKeys : list string := ["components"; "component"; "repeatable"; "left"; "right"; "outline"].
Definition rebuilt (ty : string) (dm : obj) (kids : list comp) : obj :=
  if String.eqb ty "part" || String.eqb ty "group" || String.eqb ty "basic_edge" then set "components" (maps kids) dm
  else if String.eqb ty "repeat" then dm else putBack dm (singles ty) kids.
Lemma set_id {A} k (v : A) l : lookup k l = Some v -> set k v l = l.
Proof. induction l as [|[k' v'] l IH]; cbn [lookup set]; [discriminate|]. destruct (String.eqb_spec k k') as [<-|N]; [intros [= <-]; reflexivity|]. intros H. rewrite (IH H). reflexivity. Qed.
Lemma lookup_putBack k ks : ~ In k ks -> forall kids m, lookup k (putBack m ks kids) = lookup k m.
Proof.
  unfold putBack. induction ks as [|k' ks IH]; intros HN kids m; [reflexivity|]. destruct kids as [|c kids]; [reflexivity|]. cbn [combine fold_left fst snd]. rewrite IH by (intros H; apply HN; right; exact H). apply lookup_set_other. intros <-. apply HN. left. reflexivity.
Qed.
Lemma lookup_rebuilt k ty dm kids : ~ In k childKeys -> lookup k (rebuilt ty dm kids) = lookup k dm.
Proof.
  intros HN. unfold rebuilt. cbn [In childKeys] in HN. destruct (_ || _ || _); [apply lookup_set_other; intuition|]. destruct (String.eqb_spec ty "repeat") as [|NR]; [reflexivity|]. apply lookup_putBack.
  unfold singles. destruct (String.eqb_spec ty "repeat"); [contradiction|]. destruct (String.eqb ty "repeat_edge"); [cbn [In]; intuition|]. destruct (String.eqb ty "xintercept"); [cbn [In]; intuition|]. destruct (String.eqb ty "around"); cbn [In]; intuition.
Qed.
Lemma create_map ty dm rec c : getStr dm "type" = Some ty -> create show hash rec ty dm = Ok c -> exists kids, each rec (parts_of ty dm) = Ok kids /\ ckids c = kids /\ cmap c = rebuilt ty dm kids /\ ctype c = ty.
Proof.
  intros E. assert (ET : jget dm "type" <> None) by (unfold Docs.getStr in E; destruct (jget dm "type"); [discriminate|discriminate E]).
  assert (EM : forall kids, mustStr show (rebuilt ty dm kids) "type" "" = ty).
  { intros kids. unfold mustStr. rewrite (getStr_lookup show (rebuilt ty dm kids) dm "type" eq_refl), E; [reflexivity|]. apply lookup_rebuilt. cbn [In childKeys]. intuition discriminate. }
  assert (EM0 : mustStr show dm "type" "" = ty) by (unfold mustStr; rewrite E; reflexivity).
  unfold create, parts_of, rebuilt in *. destruct (String.eqb_spec ty "part") as [->|N1]; cbn [orb] in *.
  - destruct (jget dm "type") as [v|]; [|contradiction]. destruct (each rec _) as [kids| | |]; try discriminate. intros [= <-]. exists kids. auto.
  - destruct (String.eqb_spec ty "group") as [->|N2]; cbn [orb] in *; [destruct (each rec _) as [kids| | |]; try discriminate; intros [= <-]; exists kids; cbn; auto|].
    destruct (String.eqb_spec ty "basic_edge") as [->|N3]; [destruct (each rec _) as [kids| | |]; try discriminate; intros [= <-]; exists kids; cbn; auto|].
    destruct (String.eqb_spec ty "repeat") as [->|N4].
    + change (singles "repeat") with ["component"]. cbn [map each]. destruct (rec (objAt dm "component")) as [k| | |]; try discriminate. cbn [bind]. intros [= <-]. exists [k]. auto.
    + rewrite each_map. destruct (each _ (singles ty)) as [kids| | |]; try discriminate. intros [= <-]. exists kids. cbn. auto.
Qed.
Lemma allObjs_map l : allObjs (map (fun c => JObj (cmap c)) l) = Some (map cmap l).
Proof. induction l as [|c l IH]; cbn [map allObjs]; [reflexivity|]. rewrite IH. reflexivity. Qed.
Lemma each_length {A B} (f : A -> res B) l : forall r, each f l = Ok r -> List.length r = List.length l.
Proof. induction l as [|a l IH]; intros r H; cbn [each] in H; [injection H as <-; reflexivity|]. destruct (f a); try discriminate. cbn [bind] in H. destruct (each f l) as [bs| | |]; try discriminate. injection H as <-. cbn. f_equal. apply IH. reflexivity. Qed.
Ltac lk := repeat first [rewrite lookup_set_same | rewrite lookup_set_other by discriminate].
Lemma rebuilt_again ty dm kids : In ty builtin -> ty <> "repeat" -> List.length kids = List.length (parts_of ty dm) ->
  parts_of ty (rebuilt ty dm kids) = map cmap kids /\ forall kids', map cmap kids' = map cmap kids -> rebuilt ty (rebuilt ty dm kids) kids' = rebuilt ty dm kids.
Proof.
  intros HB NR HL. assert (HM : forall l, maps l = JArr (map JObj (map cmap l))) by (intros l; unfold maps; rewrite map_map; reflexivity).
  cbn [In builtin] in HB. repeat destruct HB as [HB|HB]; try contradiction; subst ty; unfold parts_of, rebuilt in *; cbn [String.eqb Ascii.eqb Bool.eqb orb] in *; try congruence.
  all: try (split; [unfold objs; rewrite jget_plain, lookup_set_same by reflexivity; unfold maps; rewrite allObjs_map; reflexivity|intros kids' HK; rewrite !HM, HK; apply set_id, lookup_set_same]).
  all: cbn in HL; unfold singles; cbn [String.eqb Ascii.eqb Bool.eqb].
  all: destruct kids as [|c1 kids]; try discriminate HL; try (split; [reflexivity|intros kids' HK; destruct kids'; [reflexivity|discriminate]]).
  all: destruct kids as [|c2 kids]; try discriminate HL; try (destruct kids as [|c3 kids]; try discriminate HL); try (destruct kids as [|c4 kids]; try discriminate HL).
  all: unfold putBack; cbn [combine fold_left fst snd map]; split.
  all: try (unfold objAt; repeat (rewrite jget_plain by reflexivity); lk; reflexivity).
  all: intros kids' HK; repeat (destruct kids' as [|? kids']; [discriminate HK|cbn [map] in HK; injection HK as ? HK]); destruct kids'; try discriminate HK; cbn [combine fold_left fst snd].
  all: repeat match goal with H : cmap _ = cmap _ |- _ => rewrite H; clear H end; repeat (rewrite set_id; [|lk; reflexivity]); reflexivity.
Qed.
Lemma each_maps f cs l r : each (Make f cs) l = Ok r -> forall g, (forall o c, In c r -> Make f cs o = Ok c -> exists c', g (cmap c) = Ok c' /\ cmap c' = cmap c) -> exists r', each g (map cmap r) = Ok r' /\ map cmap r' = map cmap r.
Proof.
  revert r. induction l as [|o l IH]; intros r H g HG; cbn [each] in H; [injection H as <-; exists []; split; reflexivity|]. destruct (Make f cs o) as [c| | |] eqn:E; try discriminate. cbn [bind] in H. destruct (each (Make f cs) l) as [bs| | |]; try discriminate. injection H as <-.
  destruct (HG o c (or_introl eq_refl) E) as (c' & E1 & E2). destruct (IH bs eq_refl g) as (r' & R1 & R2); [intros o' c0 HI; apply HG; right; exact HI|]. exists (c' :: r'). cbn [map each]. rewrite E1, R1. cbn [bind]. rewrite E2, R2. split; reflexivity.
Qed.

(** The map of a component without a "repeat" can be used without the definitions it was made with: nothing in it is custom any more. *)
Theorem C73_expanded fuel : forall cs dm c, Make fuel cs dm = Ok c -> (forall e, below e c -> ctype e <> "repeat") ->
  forall cs', exists c', Make fuel cs' (cmap c) = Ok c' /\ cmap c' = cmap c.
Proof.
  induction fuel as [|f IH]; intros cs dm c H NR cs'; [discriminate|]. cbn [Docs.Make] in H. destruct (getStr dm "type") as [ty|] eqn:E; [|discriminate]. destruct (existsb (String.eqb ty) builtin) eqn:EB.
  - destruct (create_map ty dm _ c E H) as (kids & EK & CK & CM & CT). assert (NR' : ty <> "repeat") by (rewrite <- CT; apply NR; constructor). assert (HB := proj1 (builtin_in ty) EB).
    destruct (rebuilt_again ty dm kids HB NR') as [P1 P2]; [eapply each_length; exact EK|].
    assert (E' : getStr (rebuilt ty dm kids) "type" = Some ty) by (rewrite (getStr_lookup show _ dm "type" eq_refl), E; [reflexivity|apply lookup_rebuilt; cbn [In childKeys]; intuition discriminate]).
    cbn [Docs.Make]. rewrite CM, E', EB.
    destruct (each_maps f cs _ _ EK (Make f cs')) as (r' & R1 & R2).
    { intros o k HI EO. apply (IH cs o k EO). intros e He. apply NR. destruct c as [t i m ks]. cbn [ckids] in CK. subst ks. eapply below_kid; eauto. }
    destruct (create_kids ty (rebuilt ty dm kids)) as (k & KE & KK). pose proof (KE (Make f cs')) as KE'. rewrite P1, R1 in KE'. cbn [bind] in KE'. exists (k r'). split; [exact KE'|].
    destruct (create_map ty _ _ _ E' KE') as (r2 & RE & _ & RM & _). rewrite P1, R1 in RE. injection RE as <-. rewrite RM. apply P2. exact R2.
  - destruct (lookup ty cs) as [d|]; [|discriminate]. destruct (IH cs _ c H NR cs') as (c' & E1 & E2). exists c'. split; [|exact E2]. eapply Make_mono; [exact E1|lia].
Qed.

(** A component of a custom type is what the definition says, but for what is said where it is used *)
Lemma lookup_instance k d dm : uobj dm -> k <> "transforms" -> k <> "type" ->
  lookup k (instance d dm) = match lookup k dm with Some w => Some (over w (lookup k (if String.eqb (mustStr show d "type" "part") "part" then removeIndex (del "custom_component" d) else del "custom_component" d))) | None => lookup k (if String.eqb (mustStr show d "type" "part") "part" then removeIndex (del "custom_component" d) else del "custom_component" d) end.
Proof.
  intros U N1 N2. unfold Docs.instance. rewrite lookup_set_other by auto. rewrite lookup_jmerge by (apply uniq_del, U). rewrite lookup_del_other by auto.
  assert (EM : mustStr show (del "custom_component" d) "type" "part" = mustStr show d "type" "part").
  { unfold mustStr. rewrite (getStr_lookup show (del "custom_component" d) d "type" eq_refl); [reflexivity|]. apply lookup_del_other. discriminate. }
  rewrite EM. destruct (String.eqb (mustStr show d "type" "part") "part"); [|reflexivity].
  assert (ES : lookup k (removeIndex (set "type" (JStr "group") (del "custom_component" d))) = lookup k (removeIndex (del "custom_component" d))).
  { unfold removeIndex. rewrite !(lookup_set_other "type") by discriminate. destruct (lookup "params.index" (del "custom_component" d)).
    - destruct (string_dec "params.index" k) as [<-|NK]; [rewrite !lookup_del_same; reflexivity|]. rewrite !(lookup_del_other "params.index") by exact NK. apply lookup_set_other. auto.
    - destruct (lookup "params" (del "custom_component" d)) as [[]|]; try (apply lookup_set_other; auto). destruct (string_dec "params" k) as [<-|NK]; [rewrite !lookup_set_same; reflexivity|]. rewrite !(lookup_set_other "params") by exact NK. apply lookup_set_other. auto. }
  rewrite ES. reflexivity.
Qed.
Lemma lookup_removeIndex k d : k <> "params" -> k <> "params.index" -> lookup k (removeIndex d) = lookup k d.
Proof. intros N1 N2. unfold removeIndex. destruct (lookup "params.index" d); [apply lookup_del_other; auto|]. destruct (lookup "params" d) as [[]|]; try reflexivity. apply lookup_set_other. auto. Qed.
Lemma type_instance d dm : uobj dm -> getStr (instance d dm) "type" = (if String.eqb (mustStr show d "type" "part") "part" then Some "group" else getStr d "type").
Proof.
  intros U. assert (EM : mustStr show (del "custom_component" d) "type" "part" = mustStr show d "type" "part").
  { unfold mustStr. rewrite (getStr_lookup show (del "custom_component" d) d "type" eq_refl); [reflexivity|]. apply lookup_del_other. discriminate. }
  assert (EL : lookup "type" (instance d dm) = lookup "type" (if String.eqb (mustStr show d "type" "part") "part" then set "type" (JStr "group") (del "custom_component" d) else d)).
  { unfold Docs.instance. rewrite lookup_set_other by discriminate. rewrite lookup_jmerge by (apply uniq_del, U). rewrite lookup_del_same, EM. destruct (String.eqb _ _); [|apply lookup_del_other; discriminate]. apply lookup_removeIndex; discriminate. }
  rewrite (getStr_lookup show _ _ "type" eq_refl EL). destruct (String.eqb _ _); [|reflexivity]. unfold Docs.getStr. rewrite jget_plain, lookup_set_same by reflexivity. reflexivity.
Qed.

Theorem C73_custom fuel cs dm ty d c : uobj dm -> getStr dm "type" = Some ty -> ~ In ty builtin -> lookup ty cs = Some d -> In (mustStr show d "type" "part") builtin ->
  Make fuel cs dm = Ok c ->
  (* its type is that of the definition, a part is a group *)
  ctype c = (if String.eqb (mustStr show d "type" "part") "part" then "group" else mustStr show d "type" "part") /\
  (* it is transformed as the definition says and then as is said here *)
  objs (cmap c) "transforms" = objs d "transforms" ++ objs dm "transforms" /\
  (* values given here hold, others are those of the definition *)
  (forall k v, ~ In k (["type"; "transforms"] ++ childKeys) -> ~ isMap v -> lookup k dm = Some v -> lookup k (cmap c) = Some v) /\
  (forall k, ~ In k (["type"; "transforms"; "custom_component"; "params"; "params.index"] ++ childKeys) -> lookup k dm = None -> lookup k (cmap c) = lookup k d) /\
  (* and so for parameters, but for the index of a part *)
  (forall k v, ~ isMap v -> jwalk dm ["params"; k] = Some v -> jwalk (cmap c) ["params"; k] = Some v) /\
  (forall k, k <> "index" -> (forall v, lookup "params" dm = Some v -> exists p, v = JObj p /\ lookup k p = None) -> jwalk (cmap c) ["params"; k] = jwalk d ["params"; k]).
Proof.
  intros U E HN HL HT H. destruct fuel as [|f]; [discriminate|]. cbn [Docs.Make] in H. rewrite E in H. destruct (existsb (String.eqb ty) builtin) eqn:EB; [apply builtin_in in EB; contradiction|]. rewrite HL in H. clear HL HN EB.
  set (t := mustStr show d "type" "part") in *. set (ty' := if String.eqb t "part" then "group" else t).
  assert (ET : getStr (instance d dm) "type" = Some ty').
  { rewrite type_instance by exact U. fold t. unfold ty'. destruct (String.eqb_spec t "part") as [_|NP]; [reflexivity|]. unfold t, mustStr in *. destruct (getStr d "type"); [reflexivity|contradiction]. }
  assert (EB : existsb (String.eqb ty') builtin = true) by (apply builtin_in; unfold ty'; destruct (String.eqb t "part"); [cbn; auto|exact HT]).
  destruct f as [|f]; [discriminate|]. cbn [Docs.Make] in H. rewrite ET, EB in H. destruct (create_map ty' _ _ c ET H) as (kids & _ & _ & CM & CT). rewrite CM.
  assert (LK : forall k, ~ In k childKeys -> lookup k (rebuilt ty' (instance d dm) kids) = lookup k (instance d dm)) by (intros k; apply lookup_rebuilt).
  assert (PK : ~ In "params" childKeys) by (cbn [In childKeys]; intuition discriminate).
  split; [exact CT|]. split; [|split; [|split; [|split]]].
  - rewrite (objs_lookup _ (instance d dm) "transforms" eq_refl) by (apply LK; cbn [In childKeys]; intuition discriminate). unfold objs at 1. unfold Docs.instance. rewrite jget_plain, lookup_set_same by reflexivity.
    rewrite (objs_lookup (del "type" dm) dm "transforms" eq_refl) by (apply lookup_del_other; discriminate). generalize (objs d "transforms" ++ objs dm "transforms"). intros l. enough (A : allObjs (map JObj l) = Some l) by (rewrite A; reflexivity). induction l as [|o l IH]; cbn [map allObjs]; [reflexivity|]. rewrite IH. reflexivity.
  - intros k v HK NM HV. rewrite LK by (intros X; apply HK, in_or_app; right; exact X). rewrite lookup_instance by (try exact U; intros ->; apply HK; cbn; auto). rewrite HV. destruct v; try reflexivity. exfalso. apply NM. eexists. reflexivity.
  - intros k HK HV. rewrite LK by (intros X; apply HK, in_or_app; right; exact X). rewrite lookup_instance by (try exact U; intros ->; apply HK; cbn; auto). rewrite HV. fold t.
    assert (ED : lookup k (del "custom_component" d) = lookup k d) by (apply lookup_del_other; intros <-; apply HK; cbn; auto). destruct (String.eqb t "part"); [|exact ED]. rewrite lookup_removeIndex; [exact ED| |]; intros ->; apply HK; cbn; auto 8.
  - intros k v NM HV. rewrite !jwalk_cons in *. rewrite LK by exact PK. rewrite lookup_instance by (try exact U; discriminate). destruct (lookup "params" dm) as [[s|n|l|p]|] eqn:EP; try discriminate HV. rewrite over_obj. rewrite jwalk_one in *.
    assert (UP : uobj p) by (exact (uniq_lookup _ _ _ U EP)). inversion UP; subst. rewrite lookup_mg by assumption. rewrite HV. destruct v; try reflexivity. exfalso. apply NM. eexists. reflexivity.
  - intros k NI HP. rewrite !jwalk_cons. rewrite LK by exact PK. rewrite lookup_instance by (try exact U; discriminate). fold t.
    assert (ED : lookup "params" (del "custom_component" d) = lookup "params" d) by (apply lookup_del_other; discriminate).
    assert (ER : match lookup "params" (if String.eqb t "part" then removeIndex (del "custom_component" d) else del "custom_component" d) with Some (JObj o) => jwalk o [k] | _ => None end = match lookup "params" d with Some (JObj o) => jwalk o [k] | _ => None end).
    { destruct (String.eqb t "part"); [|rewrite ED; reflexivity]. unfold removeIndex. destruct (lookup "params.index" (del "custom_component" d)); [rewrite lookup_del_other by discriminate; rewrite ED; reflexivity|]. rewrite ED.
      destruct (lookup "params" d) as [[s|n|l|p]|] eqn:EP; rewrite ?ED, ?EP; try reflexivity. rewrite lookup_set_same. rewrite !jwalk_one. apply lookup_del_other. auto. }
    destruct (lookup "params" dm) as [v|] eqn:EP; [|exact ER]. destruct (HP v eq_refl) as (p & -> & HK). rewrite over_obj, jwalk_one. assert (UP : uobj p) by (exact (uniq_lookup _ _ _ U EP)). inversion UP; subst. rewrite lookup_mg by assumption. rewrite HK. rewrite <- ER.
    unfold base. match goal with |- context [lookup "params" (if ?b then ?x else ?y)] => destruct (lookup "params" (if b then x else y)) as [[]|] end; rewrite ?jwalk_one; reflexivity.
Qed.
(** The name of a custom component is the name of a factory: it is never used *)
Theorem C73_name_refuted fuel cs ty d dm : In ty builtin -> Make fuel (set ty d cs) dm = Make fuel cs dm.
Proof.
  intros HB. revert dm. induction fuel as [|f IH]; intros dm; [reflexivity|]. cbn [Docs.Make]. destruct (getStr dm "type") as [t|]; [|reflexivity]. destruct (existsb (String.eqb t) builtin) eqn:EB.
  - destruct (create_kids t dm) as (k & KE & _). rewrite !KE. enough (EE : forall l, each (Make f (set ty d cs)) l = each (Make f cs) l) by (rewrite EE; reflexivity). induction l as [|o l IL]; cbn [each]; [reflexivity|]. rewrite IH, IL. reflexivity.
  - rewrite lookup_set_other by (intros <-; rewrite (proj2 (builtin_in ty) HB) in EB; discriminate). destruct (lookup t cs); [apply IH|reflexivity].
Qed.
End Make.

(** *** Examples *)
Notation make73 := (Make noShow hash0).
(** a table with two legs, a leg is a group with a foot that is drawn *)
Definition foot73 : obj := [("type", JStr "draw"); ("id", JStr "foot"); ("commands", JStr "M 0 0")].
Definition leg73 : obj := [("type", JStr "part"); ("custom_component", JObj [("type", JStr "leg")]); ("length", JOther 700); ("params", JObj [("index", JOther 1); ("width", JOther 40)]);
  ("transforms", JArr [JObj [("type", JStr "rotate")]]); ("components", JArr [JObj [("type", JStr "foot")]])].
Definition customs73 : list (string * obj) := [("foot", foot73); ("leg", leg73)].
Definition use73 : obj := [("type", JStr "leg"); ("length", JOther 650); ("params", JObj [("height", JOther 3)]); ("transforms", JArr [JObj [("type", JStr "scale")]])].
Definition table73 : obj := [("type", JStr "group"); ("components", JArr [JObj use73; JObj [("type", JStr "leg")]])].
Ltac uobj73 := repeat (constructor; try (cbn; intuition discriminate)).
Definition all73 : list obj :=
  [table73; use73; [("type", JStr "leg")]; instance noShow leg73 use73; instance noShow leg73 [("type", JStr "leg")]; [("type", JStr "foot")]; instance noShow foot73 [("type", JStr "foot")]].
Lemma known73 x : reaches noShow customs73 table73 x -> In x all73.
Proof.
  assert (G : forall y z, In y all73 ->
     child noShow customs73 z y -> In z all73).
  { intros y z HY HC. inversion HC as [ty dm o E HI HO|ty dm k E HI|ty dm d E HN HL]; subst; cbn [In all73] in HY; repeat destruct HY as [HY|HY]; try contradiction; subst y; cbn in E; injection E as <-.
    all: try (cbn in HI; intuition congruence). all: try (cbn in HO; cbn [In all73]; intuition auto; fail). all: try (exfalso; apply HN; cbn [In builtin]; auto 10; fail).
    all: cbn in HL; injection HL as <-; cbn [In all73]; auto 10. }
  intros H. assert (R : forall y, reaches noShow customs73 y x -> In y all73 -> In x all73).
  { clear H. intros y H. induction H as [|dm o x HC HR IH]; [auto|]. intros HI. apply IH. eapply G; eauto. }
  apply (R table73 H). left. reflexivity.
Qed.
Example C73_known_example : Acc (child noShow customs73) table73 /\ (forall x, reaches noShow customs73 table73 x -> known noShow customs73 x) /\
  match make73 9 customs73 table73 with Ok c => map (fun e => (ctype e, map cid (ckids e))) (ckids c) | _ => [] end = [("group", ["foot"]); ("group", ["foot"])].
Proof.
  split; [|split; [|reflexivity]].
  - assert (A1 : Acc (child noShow customs73) (instance noShow foot73 [("type", JStr "foot")])).
    { constructor. intros y HC. inversion HC as [ty dm o E HI HO|ty dm k E HI|ty dm d E HN HL]; subst; cbn in E; injection E as <-; cbn in HI || idtac; try (cbn in HI; intuition congruence). exfalso. apply HN. cbn. auto. }
    assert (A2 : Acc (child noShow customs73) [("type", JStr "foot")]).
    { constructor. intros y HC. inversion HC as [ty dm o E HI HO|ty dm k E HI|ty dm d E HN HL]; subst; cbn in E; injection E as <-; try (cbn in HI; intuition congruence). cbn in HL. injection HL as <-. exact A1. }
    assert (A3 : forall u, In u [use73; [("type", JStr "leg")]] -> Acc (child noShow customs73) (instance noShow leg73 u)).
    { intros u HU. constructor. intros y HC. cbn [In] in HU. destruct HU as [<-|[<-|[]]].
      all: inversion HC as [ty dm o E HI HO|ty dm k E HI|ty dm d E HN HL]; subst; cbn in E; injection E as <-; try (cbn in HI; intuition congruence); try (exfalso; apply HN; cbn; auto 8; fail); cbn in HO; destruct HO as [<-|[]]; exact A2. }
    assert (A4 : forall u, In u [use73; [("type", JStr "leg")]] -> Acc (child noShow customs73) u).
    { intros u HU. pose proof (A3 u HU) as A. constructor. intros y HC. cbn [In] in HU. destruct HU as [<-|[<-|[]]].
      all: inversion HC as [ty dm o E HI HO|ty dm k E HI|ty dm d E HN HL]; subst; cbn in E; injection E as <-; try (cbn in HI; intuition congruence); cbn in HL; injection HL as <-; exact A. }
    constructor. intros y HC. inversion HC as [ty dm o E HI HO|ty dm k E HI|ty dm d E HN HL]; subst; cbn in E; injection E as <-; try (cbn in HI; intuition congruence); [|exfalso; apply HN; cbn; auto 8]. apply A4. exact HO.
  - intros x HX. apply known73 in HX. cbn [In all73] in HX. repeat destruct HX as [HX|HX]; try contradiction; subst x.
    all: eexists; split; [reflexivity|]. all: first [left; cbn; tauto|right; discriminate].
Qed.
Example C73_unknown_example : reaches noShow [("leg", leg73)] table73 [("type", JStr "foot")] /\ ~ known noShow [("leg", leg73)] [("type", JStr "foot")] /\ make73 9 [("leg", leg73)] table73 = Err.
Proof.
  split; [|split; [|reflexivity]].
  - apply reaches_child with (o := use73); [eapply child_list; [reflexivity|cbn; auto|left; reflexivity]|]. apply reaches_child with (o := instance noShow leg73 use73); [eapply child_custom; [reflexivity|cbn; intuition discriminate|reflexivity]|].
    apply reaches_child with (o := [("type", JStr "foot")]); [eapply child_list; [reflexivity|cbn; auto|left; reflexivity]|apply reaches_self].
  - intros (ty & E & H). cbn in E. injection E as <-. destruct H as [H|H]; [cbn in H; intuition discriminate|apply H; reflexivity].
Qed.
Example C73_custom_example : exists c, make73 9 customs73 use73 = Ok c /\ uobj use73 /\ ctype c = "group" /\ map (fun k => jget (cmap c) k) ["length"; "params.width"; "params.height"; "params.index"; "custom_component"] = [Some (JOther 650); Some (JOther 40); Some (JOther 3); None; None] /\
  objs (cmap c) "transforms" = [[("type", JStr "rotate")]; [("type", JStr "scale")]].
Proof. eexists. split; [reflexivity|]. split; [uobj73|]. repeat split. Qed.
Example C73_expanded_example : exists c, make73 9 customs73 table73 = Ok c /\ (forall e, below e c -> ctype e <> "repeat").
Proof.
  eexists. split; [reflexivity|]. intros e H. repeat (inversion H as [|? ? ? HI HB]; clear H; subst; [discriminate|]; rename HB into H; cbn in HI; repeat destruct HI as [HI|HI]; try contradiction; subst).
Qed.

(** With a "repeat" it cannot: its child stays as it was written. *)
Definition row73 : obj := [("type", JStr "repeat"); ("custom_component", JObj [("type", JStr "row")]); ("id", JStr "row"); ("component", JObj [("type", JStr "dot")])].
Definition dot73 (i : string) : obj := [("type", JStr "draw"); ("id", JStr i); ("custom_component", JObj [("type", JStr "dot")])].
(** "rows" imports its dots and defines a row of them; another document uses rows *)
Definition rows73 : obj := [("imports", JArr [JObj [("path", JStr "dots")]]); ("parts", JArr [JObj [("id", JStr "p"); ("components", JArr [JObj row73])]])].
Definition dots73 (i : string) : obj := [("parts", JArr [JObj [("id", JStr "p"); ("components", JArr [JObj (dot73 i)])]])].
Definition uses73 (imp : list obj) (t : string) : obj := [("imports", JArr (map JObj imp)); ("parts", JArr [JObj [("id", JStr "q"); ("components", JArr [JObj [("type", JStr t)]])]])].
Definition dir73 : list (string * obj) := [("rows", rows73); ("dots", dots73 "round"); ("others", dots73 "square")].
Definition rowOf (r : res doc) : res (list string) := match r with Ok D => Ok (flat_map (fun p => flat_map (fun c => map cid (ckids c)) (ckids p)) (d_parts D)) | Err => Err | Panic => Panic | OutOfFuel => OutOfFuel end.
Lemma loop73 fuel : make73 fuel [("dot", row73 ++ [("defaults", JObj [])])] [("type", JStr "dot")] = OutOfFuel.
Proof.
  enough (G : forall f, make73 f [("dot", row73 ++ [("defaults", JObj [])])] [("type", JStr "dot")] = OutOfFuel /\ make73 (S f) [("dot", row73 ++ [("defaults", JObj [])])] [("type", JStr "dot")] = OutOfFuel) by apply G.
  induction f as [|f [IH1 IH2]]; [split; reflexivity|]. split; [exact IH2|]. cbn [Docs.Make]. cbn in *. rewrite IH1. reflexivity.
Qed.
Theorem C73_repeat_refuted :
  (* a component that can be made, whose map cannot be used without the definitions *)
  (exists c, make73 9 [("dot", dot73 "round")] row73 = Ok c /\ forall fuel c', make73 fuel [] (cmap c) <> Ok c') /\
  (* the document of rows is fine, and its row has a round dot *)
  rowOf (parse72 dir73 (fun l => l) 9 rows73) = Ok ["round"] /\
  (* used elsewhere a row is an error, or has the dots of another document, or making it does not end *)
  rowOf (parse72 dir73 (fun l => l) 9 (uses73 [[("path", JStr "rows")]] "row")) = Err /\
  rowOf (parse72 dir73 (fun l => l) 9 (uses73 [[("path", JStr "rows")]; [("path", JStr "others")]] "row")) = Ok ["square"] /\
  forall fuel, rowOf (parse72 dir73 (fun l => l) (6 + fuel) (uses73 [[("path", JStr "rows"); ("alias", JObj [("row", JStr "dot")])]] "dot")) = OutOfFuel.
Proof.
  split; [|split; [reflexivity|split; [reflexivity|split; [reflexivity|]]]].
  - eexists. split; [reflexivity|]. intros fuel c'. apply (C73_unknown noShow hash0 [] _ [("type", JStr "dot")]).
    + apply reaches_child with (o := [("type", JStr "dot")]); [|apply reaches_self]. exact (child_key noShow [] "repeat" row73 "component" eq_refl (or_introl eq_refl)).
    + intros (ty & E & H). cbn in E. injection E as <-. destruct H as [H|H]; [cbn in H; intuition discriminate|apply H; reflexivity].
  - intros fuel. change (6 + fuel)%nat with (S (5 + fuel)). set (imp := [("path", JStr "rows"); ("alias", JObj [("row", JStr "dot")])]).
    assert (EI : imports noShow (dir dir73) noSvg (fun l => l) (parse72 dir73 (fun l => l) (5 + fuel)) [imp] ([], []) = Ok ([("dot", row73 ++ [("defaults", JObj [])])], [])) by reflexivity.
    assert (EP : each (create noShow hash0 (make73 (5 + fuel) [("dot", row73 ++ [("defaults", JObj [])])]) "part") [[("id", JStr "q"); ("components", JArr [JObj [("type", JStr "dot")]])]] = OutOfFuel).
    { unfold each, create. cbn [String.eqb Ascii.eqb Bool.eqb]. change (objs _ "components") with [[("type", JStr "dot")]]. cbn [each]. rewrite loop73. reflexivity. }
    cbn [Parse]. change (mustStr noShow (uses73 [imp] "dot") "filename" "") with "". change (objs (uses73 [imp] "dot") "imports") with [imp]. change (objs (uses73 [imp] "dot") "parts") with [[("id", JStr "q"); ("components", JArr [JObj [("type", JStr "dot")]])]]. cbv iota. rewrite EI. cbn [bind fst]. rewrite EP. reflexivity.
Qed.
