(** C100: which factory makes which type. *)
From Coq Require Import String List Bool Arith.
From Verif Require Import Num DynModel DynProofs Registry Docs Factories RealNum.
Import ListNotations.
Local Open Scope string_scope.
Local Open Scope list_scope.

(** the factory that makes a type: the last one of the list that names it *)
Definition lastNaming {A} (l : list (factory A)) (name : string) (f : factory A) : Prop :=
  exists before after, l = before ++ f :: after /\ In name (f_types f) /\ forall g, In g after -> ~ In name (f_types g).
Definition named {A} (l : list (factory A)) (name : string) : Prop := exists f, In f l /\ In name (f_types f).

Lemma register_lookup {A} (f : factory A) m name : lookup name (register m f) = if existsb (String.eqb name) (f_types f) then Some f else lookup name m.
Proof.
  unfold register. revert m. induction (f_types f) as [|k ks IH]; intros m; [reflexivity|]. cbn [fold_left existsb]. rewrite IH.
  destruct (existsb (String.eqb name) ks) eqn:E; [rewrite orb_true_r; reflexivity|]. rewrite orb_false_r. destruct (String.eqb name k) eqn:Q.
  - apply String.eqb_eq in Q. subst k. apply lookup_set_same.
  - apply String.eqb_neq in Q. apply lookup_set_other. congruence.
Qed.
Lemma existsb_In name l : existsb (String.eqb name) l = true <-> In name l.
Proof. rewrite existsb_exists. split; [intros (x & I & E); apply String.eqb_eq in E; subst; exact I|intros I; exists name; split; [exact I|apply String.eqb_refl]]. Qed.
Lemma fold_register {A} (l : list (factory A)) : forall m name,
  (forall f, lastNaming l name f -> lookup name (fold_left register l m) = Some f) /\ (~ named l name -> lookup name (fold_left register l m) = lookup name m).
Proof.
  induction l as [|g l IH] using rev_ind; intros m name.
  - split; [intros f ([|] & ? & E & _); discriminate|reflexivity].
  - rewrite fold_left_app. cbn [fold_left]. rewrite register_lookup. destruct (IH m name) as [IH1 IH2]. destruct (existsb (String.eqb name) (f_types g)) eqn:E.
    + apply existsb_In in E. split.
      * intros f (b & a & Q & I & NA). destruct a as [|x a] using rev_ind.
        -- apply app_inj_tail in Q. destruct Q as [_ <-]. reflexivity.
        -- rewrite app_comm_cons, app_assoc in Q. apply app_inj_tail in Q. destruct Q as [_ <-]. exfalso. apply (NA g); [apply in_or_app; right; left; reflexivity|exact E].
      * intros NN. exfalso. apply NN. exists g. split; [apply in_or_app; right; left; reflexivity|exact E].
    + assert (NE : ~ In name (f_types g)) by (rewrite <- existsb_In, E; discriminate). split.
      * intros f (b & a & Q & I & NA). apply IH1. destruct a as [|x a] using rev_ind.
        -- apply app_inj_tail in Q. destruct Q as [_ ->]. contradiction.
        -- clear IHa. rewrite app_comm_cons, app_assoc in Q. apply app_inj_tail in Q. destruct Q as [Q _]. exists b, a. split; [exact Q|]. split; [exact I|]. intros y Y. apply NA. apply in_or_app. left. exact Y.
      * intros NN. apply IH2. intros (f & I & T). apply NN. exists f. split; [apply in_or_app; left; exact I|exact T].
Qed.
Lemma named_last {A} (l : list (factory A)) name : named l name -> exists f, lastNaming l name f.
Proof.
  induction l as [|g l IH] using rev_ind; intros (f & I & T); [destruct I|]. destruct (in_dec string_dec name (f_types g)) as [Y|N].
  - exists g, l, []. split; [reflexivity|]. split; [exact Y|]. intros ? [].
  - apply in_app_or in I. destruct I as [I|[<-|[]]]; [|contradiction]. destruct IH as (f2 & b & a & -> & I2 & NA); [exists f; auto|].
    exists f2, b, (a ++ [g]). split; [rewrite <- app_assoc; reflexivity|]. split; [exact I2|]. intros y Y2. apply in_app_or in Y2. destruct Y2 as [Y2|[<-|[]]]; [apply NA; exact Y2|exact N].
Qed.

Section All.
Context {C Tf Pf S : Type}.
Notation context := (context C Tf Pf S).
Lemma fold_components cf : forall c : context, let d := fold_left AddComponentFactory cf c in
  componentFactories d = fold_left register cf (componentFactories c) /\ transformFactories d = transformFactories c /\ partTransformerFactories d = partTransformerFactories c /\ services d = services c /\ precision d = precision c.
Proof. induction cf as [|f cf IH]; intros c; [cbn; auto|]. cbn [fold_left]. apply (IH (AddComponentFactory c f)). Qed.
Lemma fold_transforms tf : forall c : context, let d := fold_left AddTransformFactory tf c in
  transformFactories d = fold_left register tf (transformFactories c) /\ componentFactories d = componentFactories c /\ partTransformerFactories d = partTransformerFactories c /\ services d = services c /\ precision d = precision c.
Proof. induction tf as [|f tf IH]; intros c; [cbn; auto|]. cbn [fold_left]. apply (IH (AddTransformFactory c f)). Qed.
Lemma fold_parts pf : forall c : context, let d := fold_left AddPartTransformerFactory pf c in
  partTransformerFactories d = fold_left register pf (partTransformerFactories c) /\ componentFactories d = componentFactories c /\ transformFactories d = transformFactories c /\ services d = services c /\ precision d = precision c.
Proof. induction pf as [|f pf IH]; intros c; [cbn; auto|]. cbn [fold_left]. apply (IH (AddPartTransformerFactory c f)). Qed.
Lemma Init_maps (c : context) cf tf pf s : componentFactories (Init c cf tf pf s) = fold_left register cf [] /\ transformFactories (Init c cf tf pf s) = fold_left register tf [] /\
  partTransformerFactories (Init c cf tf pf s) = fold_left register pf [] /\ services (Init c cf tf pf s) = Some s /\ precision (Init c cf tf pf s) = precision c.
Proof.
  unfold Init. set (c0 := mkContext [] (transformFactories c) (partTransformerFactories c) (services c) (precision c)).
  pose proof (fold_components cf c0) as H1. cbv zeta in H1. destruct H1 as (A1 & A2 & A3 & A4 & A5). set (c1 := fold_left AddComponentFactory cf c0) in *.
  set (c1' := mkContext (componentFactories c1) [] (partTransformerFactories c1) (services c1) (precision c1)).
  pose proof (fold_transforms tf c1') as H2. cbv zeta in H2. destruct H2 as (B1 & B2 & B3 & B4 & B5). set (c2 := fold_left AddTransformFactory tf c1') in *.
  set (c2' := mkContext (componentFactories c2) (transformFactories c2) [] (services c2) (precision c2)).
  pose proof (fold_parts pf c2') as H3. cbv zeta in H3. destruct H3 as (D1 & D2 & D3 & D4 & D5). cbn in *. rewrite D1, D2, D3, D5, B1, B2, B5, A1, A5. auto.
Qed.

(** After Init, whatever was registered before: a type is made by the last of the given factories that names it, a type that none names is an error; a component of the
    document's own is made exactly when no factory names its type. *)
Theorem C100_init (c : context) cf tf pf s :
  let d := Init c cf tf pf s in
  (forall name f, lastNaming tf name f -> made (transformFactories d) name = Ok (f_make f)) /\ (forall name, ~ named tf name -> made (transformFactories d) name = Err) /\
  (forall name f, lastNaming pf name f -> made (partTransformerFactories d) name = Ok (f_make f)) /\ (forall name, ~ named pf name -> made (partTransformerFactories d) name = Err) /\
  (forall customs name f, lastNaming cf name f -> madeComponent d customs name = Ok (f_make f)) /\
  (forall customs name own, ~ named cf name -> lookup name customs = Some own -> madeComponent d customs name = Ok own) /\
  (forall customs name, ~ named cf name -> lookup name customs = None -> madeComponent d customs name = Err) /\
  services d = Some s /\ precision d = precision c.
Proof.
  cbv zeta. destruct (Init_maps c cf tf pf s) as (A & B & D & _ & PR). unfold made, madeComponent. rewrite A, B, D. clear A B D.
  repeat split; intros; try exact PR.
  - rewrite (proj1 (fold_register tf [] name) f H). reflexivity.
  - rewrite (proj2 (fold_register tf [] name) H). reflexivity.
  - rewrite (proj1 (fold_register pf [] name) f H). reflexivity.
  - rewrite (proj2 (fold_register pf [] name) H). reflexivity.
  - rewrite (proj1 (fold_register cf [] name) f H). reflexivity.
  - rewrite (proj2 (fold_register cf [] name) H). cbn [lookup]. rewrite H0. reflexivity.
  - rewrite (proj2 (fold_register cf [] name) H). cbn [lookup]. rewrite H0. reflexivity.
Qed.

(** A factory that is added makes the types it names; every other type, and the other kinds, stay as they were, and all do when the file loader is set. *)
Theorem C100_added (c : context) (f : factory C) (g : factory Tf) (p : factory Pf) :
  (forall customs name, (In name (f_types f) -> madeComponent (AddComponentFactory c f) customs name = Ok (f_make f)) /\ (~ In name (f_types f) -> madeComponent (AddComponentFactory c f) customs name = madeComponent c customs name)) /\
  (forall name, (In name (f_types g) -> made (transformFactories (AddTransformFactory c g)) name = Ok (f_make g)) /\ (~ In name (f_types g) -> made (transformFactories (AddTransformFactory c g)) name = made (transformFactories c) name)) /\
  (forall name, (In name (f_types p) -> made (partTransformerFactories (AddPartTransformerFactory c p)) name = Ok (f_make p)) /\ (~ In name (f_types p) -> made (partTransformerFactories (AddPartTransformerFactory c p)) name = made (partTransformerFactories c) name)) /\
  transformFactories (AddComponentFactory c f) = transformFactories c /\ partTransformerFactories (AddComponentFactory c f) = partTransformerFactories c /\
  componentFactories (AddTransformFactory c g) = componentFactories c /\ partTransformerFactories (AddTransformFactory c g) = partTransformerFactories c /\
  componentFactories (AddPartTransformerFactory c p) = componentFactories c /\ transformFactories (AddPartTransformerFactory c p) = transformFactories c /\
  (forall change customs name, madeComponent (SetFileLoader c change) customs name = madeComponent c customs name /\ made (transformFactories (SetFileLoader c change)) name = made (transformFactories c) name /\
     made (partTransformerFactories (SetFileLoader c change)) name = made (partTransformerFactories c) name).
Proof.
  assert (R : forall A (x : factory A) m name, (In name (f_types x) -> lookup name (register m x) = Some x) /\ (~ In name (f_types x) -> lookup name (register m x) = lookup name m)).
  { intros A x m name. rewrite register_lookup. pose proof (existsb_In name (f_types x)) as E. destruct (existsb (String.eqb name) (f_types x)).
    - split; [reflexivity|]. intros N. exfalso. apply N, E. reflexivity.
    - split; [|reflexivity]. intros I. apply E in I. discriminate. }
  repeat split; try reflexivity; unfold madeComponent, made; cbn [AddComponentFactory AddTransformFactory AddPartTransformerFactory componentFactories transformFactories partTransformerFactories]; intros I;
    (rewrite (proj1 (R _ _ _ _) I) || rewrite (proj2 (R _ _ _ _) I)); reflexivity.
Qed.

(** What can be done to the one context of the program *)
Inductive happens : option context -> option context -> Prop :=
| asked g : happens g (Some (AppContext g))
| inited g cf tf pf s : happens g (Some (Init (AppContext g) cf tf pf s))
| loader g change : happens g (Some (SetFileLoader (AppContext g) change))
| addedC g f : happens g (Some (AddComponentFactory (AppContext g) f))
| addedT g f : happens g (Some (AddTransformFactory (AppContext g) f))
| addedP g f : happens g (Some (AddPartTransformerFactory (AppContext g) f)).
Inductive later : option context -> Prop := started : later None | next g g' : later g -> happens g g' -> later g'.
(** Numbers are compared and written with three digits, whatever is registered, and asking for the context twice gives the same one. *)
Theorem C100_digits g : later g -> precision (AppContext g) = 3 /\ AppContext (Some (AppContext g)) = AppContext g.
Proof.
  intros L. split; [|reflexivity]. induction L as [|g g' L IH H]; [reflexivity|]. destruct H; cbn [AppContext SetFileLoader AddComponentFactory AddTransformFactory AddPartTransformerFactory precision]; try exact IH.
  destruct (Init_maps (AppContext g) cf tf pf s) as (_ & _ & _ & _ & E). rewrite E. exact IH.
Qed.
End All.
Print Assumptions C100_init.
Print Assumptions C100_added.
Print Assumptions C100_digits.

(** The program: every registered factory makes its types and no other does, so that the types known are those of the other models; InitContext again changes nothing. *)
Definition known {A} (m : list (string * factory A)) (name : string) : Prop := exists f, lookup name m = Some f.
Theorem C100_shipped {S : Type} (s : S) g :
  let d := InitContext s g in
  (forall f name, In f shippedComponents -> In name (f_types f) -> madeComponent d [] name = Ok (f_make f)) /\
  (forall f name, In f shippedTransforms -> In name (f_types f) -> made (transformFactories d) name = Ok (f_make f)) /\
  (forall f name, In f shippedPartTransformers -> In name (f_types f) -> made (partTransformerFactories d) name = Ok (f_make f)) /\
  (forall name, known (componentFactories d) name <-> In name builtin) /\
  (forall (N : Num) co tr dop fuel roomy toInt name, known (transformFactories d) name <-> In name (map fst (@registered N co tr dop fuel roomy toInt))) /\
  (forall name, known (partTransformerFactories d) name <-> name = "splitter" \/ name = "lathe") /\
  InitContext s (Some d) = d.
Proof.
  cbv zeta. unfold InitContext. destruct (Init_maps (AppContext g) shippedComponents shippedTransforms shippedPartTransformers s) as (A & B & D & E & F).
  unfold madeComponent, made, known. rewrite A, B, D.
  assert (K : forall X (m : list (string * factory X)) name, (exists f, lookup name m = Some f) <-> In name (map fst m)).
  { intros X m name. induction m as [|[k x] m IH]; cbn [lookup map fst In]; [split; [intros (f & [=])|intros []]|].
    destruct (String.eqb name k) eqn:Q; [apply String.eqb_eq in Q; subst; split; [left; reflexivity|intros _; eauto]|].
    rewrite IH. split; [right; assumption|]. intros [->|I]; [rewrite String.eqb_refl in Q; discriminate|exact I]. }
  split; [|split; [|split; [|split; [|split; [|split]]]]].
  - intros f name I T. cbn [shippedComponents In] in I. repeat destruct I as [I|I]; try contradiction; subst f; destruct T as [<-|[]]; reflexivity.
  - intros f name I T. cbn [shippedTransforms In] in I. repeat destruct I as [I|I]; try contradiction; subst f; destruct T as [<-|[]]; reflexivity.
  - intros f name I T. cbn [shippedPartTransformers In] in I. repeat destruct I as [I|I]; try contradiction; subst f; destruct T as [<-|[]]; reflexivity.
  - intros name. rewrite K. cbn. intuition congruence.
  - intros. rewrite K. cbn. intuition congruence.
  - intros name. rewrite K. cbn [map fst In fold_left register f_types shippedPartTransformers set String.eqb Ascii.eqb Bool.eqb]. intuition congruence.
  - destruct (Init_maps (AppContext (Some (Init (AppContext g) shippedComponents shippedTransforms shippedPartTransformers s))) shippedComponents shippedTransforms shippedPartTransformers s) as (A2 & B2 & D2 & E2 & F2).
    cbn [AppContext] in *. destruct (Init (Init (AppContext g) shippedComponents shippedTransforms shippedPartTransformers s) shippedComponents shippedTransforms shippedPartTransformers s) as [x1 x2 x3 x4 x5].
    destruct (Init (AppContext g) shippedComponents shippedTransforms shippedPartTransformers s) as [y1 y2 y3 y4 y5]. cbn in *. congruence.
Qed.
Print Assumptions C100_shipped.

(** two factories that name one type: the later one makes it, the earlier one keeps its other types *)
Definition one : factory string := mkFactory ["box"; "lid"] "one".
Definition two : factory string := mkFactory ["tray"; "box"] "two".
Example C100_init_example : lastNaming [one; two] "box" two /\ lastNaming [one; two] "lid" one /\ ~ named [one; two] "gear" /\
  madeComponent (Init (AppContext None) [one; two] [one] (@nil (factory string)) tt) [("gear", "own"); ("lid", "own lid")] "gear" = Ok "own" /\
  madeComponent (Init (AppContext None) [one; two] [one] (@nil (factory string)) tt) [("gear", "own"); ("lid", "own lid")] "lid" = Ok "one".
Proof.
  split; [exists [one], []; split; [reflexivity|split; [right; left; reflexivity|intros ? []]]|].
  split; [exists [], [two]; split; [reflexivity|split; [right; left; reflexivity|]]|].
  { intros g [<-|[]] [E|[E|[]]]; discriminate. }
  split; [|split; reflexivity]. intros (f & [<-|[<-|[]]] & T); destruct T as [E|[E|[]]]; discriminate.
Qed.
Example C100_added_example : let c := Init (AppContext None) [one] [one] [one] tt in In "box" (f_types two) /\ ~ In "lid" (f_types two) /\
  made (transformFactories (AddTransformFactory c two)) "box" = Ok "two" /\ made (transformFactories (AddTransformFactory c two)) "lid" = Ok "one" /\ made (partTransformerFactories (AddTransformFactory c two)) "box" = Ok "one".
Proof. cbv zeta. split; [right; left; reflexivity|]. split; [intros [E|[E|[]]]; discriminate|]. repeat split. Qed.
Example C100_digits_example : later (Some (AddTransformFactory (AppContext (Some (InitContext tt None))) two)).
Proof. eapply next; [|apply addedT]. eapply next; [apply started|]. apply inited. Qed.
Example C100_shipped_example : madeComponent (InitContext tt None) [] "gear" = Ok "GearComponentFactory" /\ In "gear" builtin /\ made (transformFactories (InitContext tt None)) "slice" = Ok "SliceTransformFactory".
Proof. repeat split. cbn [builtin In]. repeat first [left; reflexivity|right]. Qed.

(** Finding: there is a factory for the transform reorder, and no design can use it, since it is not registered. *)
Theorem C100_reorder_refuted : In "reorder" (f_types reorderFactory) /\ forall (S : Type) (s : S) g, made (transformFactories (InitContext s g)) "reorder" = Err.
Proof. split; [left; reflexivity|]. intros S s g. unfold InitContext, made. destruct (Init_maps (AppContext g) shippedComponents shippedTransforms shippedPartTransformers s) as (_ & B & _). rewrite B. reflexivity. Qed.
Print Assumptions C100_reorder_refuted.
(** Finding: a component that a document imports under the name of a factory's type is never used. *)
Theorem C100_shadowed_refuted : exists customs own, lookup "gear" customs = Some own /\ forall (S : Type) (s : S) g, madeComponent (InitContext s g) customs "gear" = Ok "GearComponentFactory" /\ own <> "GearComponentFactory".
Proof.
  exists [("gear", "my gear")], "my gear". split; [reflexivity|]. intros S s g. split; [|discriminate]. unfold InitContext, madeComponent.
  destruct (Init_maps (AppContext g) shippedComponents shippedTransforms shippedPartTransformers s) as (A & _). rewrite A. reflexivity.
Qed.
Print Assumptions C100_shadowed_refuted.
