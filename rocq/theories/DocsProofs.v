(** Lemmas on documents: values by path, merging, elements by id. *)
From Coq Require Import String Ascii List ZArith Bool Permutation Lia.
From Verif Require Import Num DynModel DynProofs Components Docs.
Import ListNotations.
Local Open Scope string_scope.
Local Open Scope list_scope.

Lemma json_ind' (P : json -> Prop) : (forall s, P (JStr s)) -> (forall n, P (JOther n)) -> (forall l, Forall P l -> P (JArr l)) ->
  (forall l, Forall (fun e => P (snd e)) l -> P (JObj l)) -> forall v, P v.
Proof.
  intros H1 H2 H3 H4. fix IH 1. intros [s|n|l|l]; [apply H1|apply H2|apply H3|apply H4].
  - induction l as [|v l IL]; constructor; [apply IH|exact IL].
  - induction l as [|[k v] l IL]; constructor; [apply IH|exact IL].
Qed.

(** every map has each key once, as Go maps do *)
Inductive uniq : json -> Prop :=
| uniq_str s : uniq (JStr s)
| uniq_other n : uniq (JOther n)
| uniq_arr l : uniq (JArr l)
| uniq_obj l : NoDup (map fst l) -> Forall (fun e => uniq (snd e)) l -> uniq (JObj l).
Notation uobj o := (uniq (JObj o)).

Fixpoint mg (l : obj) (acc : obj) : obj := match l with [] => acc | (k, w) :: r => mg r (set k (over w (lookup k acc)) acc) end.
Definition base (old : option json) : obj := match old with Some (JObj o) => o | _ => [] end.
Lemma over_obj l old : over (JObj l) old = JObj (mg l (base old)).
Proof. cbn [over]. f_equal. Qed.
Lemma jmerge_mg a b : jmerge a b = mg b a.
Proof. unfold jmerge. rewrite over_obj. reflexivity. Qed.
Lemma lookup_none_in {A} k (l : list (string * A)) : lookup k l = None <-> ~ In k (map fst l).
Proof.
  induction l as [|[k' v] l IH]; cbn [lookup map In fst]; [tauto|]. destruct (String.eqb_spec k k') as [<-|N]; [split; [discriminate|tauto]|]. rewrite IH. split; [intros H [E|E]; auto|tauto].
Qed.
Lemma lookup_mg k : forall l acc, NoDup (map fst l) -> lookup k (mg l acc) = match lookup k l with Some w => Some (over w (lookup k acc)) | None => lookup k acc end.
Proof.
  induction l as [|[k' w] l IH]; intros acc ND; cbn [mg lookup]; [reflexivity|]. inversion ND as [|? ? HN ND']; subst. rewrite (IH _ ND'). destruct (String.eqb_spec k k') as [<-|N].
  - cbn [fst] in HN. rewrite (proj2 (lookup_none_in k l) HN). apply lookup_set_same.
  - rewrite (lookup_set_other k' k) by auto. reflexivity.
Qed.
Lemma lookup_jmerge k a b : uobj b -> lookup k (jmerge a b) = match lookup k b with Some w => Some (over w (lookup k a)) | None => lookup k a end.
Proof. intros H. inversion H; subst. rewrite jmerge_mg. apply lookup_mg. assumption. Qed.

(** *** keys stay distinct *)
Lemma set_keys {A} k (v : A) l : incl (map fst (set k v l)) (k :: map fst l).
Proof.
  induction l as [|[k' v'] l IH]; cbn [set map fst]; [intros x H; exact H|]. destruct (String.eqb_spec k k') as [<-|N]; cbn [map fst]; [intros x H; right; exact H|].
  intros x [<-|H]; [right; left; reflexivity|]. destruct (IH x H) as [<-|H']; [left; reflexivity|right; right; exact H'].
Qed.
Lemma set_nodup {A} k (v : A) l : NoDup (map fst l) -> NoDup (map fst (set k v l)).
Proof.
  induction l as [|[k' v'] l IH]; cbn [set map fst]; intros H; [repeat constructor; intros []|]. inversion H as [|? ? HN ND]; subst. destruct (String.eqb_spec k k') as [<-|N]; cbn [map fst]; [constructor; auto|].
  constructor; [|auto]. intros HI. destruct (set_keys k v l _ HI) as [E|E]; auto.
Qed.
Lemma set_Forall {A} (P : A -> Prop) k v l : P v -> Forall (fun e => P (snd e)) l -> Forall (fun e : string * A => P (snd e)) (set k v l).
Proof.
  intros HV. induction 1 as [|[k' v'] l H HF IH]; cbn [set]; [repeat constructor; exact HV|]. destruct (String.eqb k k'); constructor; cbn [snd] in *; auto.
Qed.
Lemma uniq_set k v l : uniq v -> uobj l -> uobj (set k v l).
Proof. intros HV H. inversion H; subst. constructor; [apply set_nodup; assumption|apply set_Forall; assumption]. Qed.
Lemma del_In {A} k (l : list (string * A)) e : In e (del k l) -> In e l.
Proof. induction l as [|[k' v'] l IH]; cbn [del]; [auto|]. destruct (String.eqb k k'); cbn [In]; tauto. Qed.
Lemma uniq_del k l : uobj l -> uobj (del k l).
Proof.
  intros H. inversion H as [| | |? ND F]; subst. constructor.
  - clear F H. induction l as [|[k' v'] l IH]; cbn [del]; [constructor|]. inversion ND as [|? ? HN ND']; subst. destruct (String.eqb k k'); [auto|]. cbn [map fst]. constructor; [|auto].
    intros HI. apply HN. apply in_map_iff in HI. destruct HI as (e & E & HI). apply del_In in HI. apply in_map_iff. exists e; auto.
  - rewrite Forall_forall in *. intros e He. apply F, (del_In k), He.
Qed.
Lemma uniq_lookup k l v : uobj l -> lookup k l = Some v -> uniq v.
Proof.
  intros H. inversion H as [| | |? ND F]; subst. clear H ND. induction F as [|[k' v'] l H _ IH]; cbn [lookup]; [discriminate|]. destruct (String.eqb k k'); [intros [= <-]; exact H|exact IH].
Qed.
Lemma uniq_over v : uniq v -> forall old, (forall o, old = Some o -> uniq o) -> uniq (over v old).
Proof.
  induction v as [s|n|l _|l IH] using json_ind'; intros HV old HO; [constructor|constructor|constructor|]. rewrite over_obj.
  assert (HB : uobj (base old)) by (unfold base; destruct old as [[]|]; try (constructor; constructor); apply HO; reflexivity).
  inversion HV as [| | |? ND F]; subst. clear ND HV HO. generalize dependent (base old). induction l as [|[k w] l IL]; intros acc HB; cbn [mg]; [exact HB|].
  inversion IH as [|? ? H1 H2]; subst. inversion F as [|? ? H3 H4]; subst. apply IL; auto. apply uniq_set; [|exact HB]. apply H1; [exact H3|]. intros o Ho. eapply uniq_lookup; eauto.
Qed.
Lemma uniq_jmerge a b : uobj a -> uobj b -> uobj (jmerge a b).
Proof. intros HA HB. unfold jmerge. pose proof (uniq_over _ HB (Some (JObj a))) as H. rewrite over_obj in *. apply H. intros o [= <-]. exact HA. Qed.
Lemma uniq_addTo m k v : uobj m -> uobj (addTo m k v).
Proof. intros H. unfold addTo. destruct (jget m k) as [[]|]; try exact H; apply uniq_set; try exact H; constructor. Qed.
Lemma uniq_addAll k l : forall m, uobj m -> uobj (fold_left (fun m i => addTo m k (JObj i)) l m).
Proof. induction l as [|i l IH]; intros m H; cbn [fold_left]; [exact H|]. apply IH, uniq_addTo, H. Qed.

(** *** values by path *)
Definition isMap (v : json) : Prop := exists o, v = JObj o.
(** nothing is a map in one and something else in the other *)
Definition agree (a b : obj) (k : string) : Prop := forall r v w, jwalk a (k :: r) = Some v -> jwalk b (k :: r) = Some w -> (isMap v <-> isMap w).

Lemma jwalk_cons o k k2 r : jwalk o (k :: k2 :: r) = match lookup k o with Some (JObj o') => jwalk o' (k2 :: r) | _ => None end.
Proof. reflexivity. Qed.
Lemma jwalk_one o k : jwalk o [k] = lookup k o. Proof. reflexivity. Qed.

(** merging, key by key: what is new wins, maps are merged *)
Lemma jwalk_merge r : forall k a b, uobj b -> agree a b k ->
  (forall v, ~ isMap v -> (jwalk (jmerge a b) (k :: r) = Some v <-> jwalk b (k :: r) = Some v \/ (jwalk b (k :: r) = None /\ jwalk a (k :: r) = Some v))) /\
  ((exists o, jwalk (jmerge a b) (k :: r) = Some (JObj o)) <-> (exists o, jwalk b (k :: r) = Some (JObj o)) \/ (exists o, jwalk a (k :: r) = Some (JObj o))).
Proof.
  induction r as [|k2 r IH]; intros k a b UB AG.
  - rewrite !jwalk_one, lookup_jmerge by exact UB. specialize (AG []). rewrite !jwalk_one in AG. destruct (lookup k b) as [w|] eqn:EB.
    + destruct w as [s|n|l|l]; cbn [over].
      1-3: split; [intros v HV; split; [intros H; left; exact H|intros [H|[H _]]; [exact H|discriminate]]|]; split; [intros (o & H); discriminate|intros [(o & H)|(o & H)]; [discriminate|]]; exfalso; destruct (AG _ _ H eq_refl) as [AG' _]; destruct AG' as (o' & E); [exists o; reflexivity|discriminate].
      split; [intros v HV; split; [intros [= <-]; exfalso; apply HV; eexists; reflexivity|intros [[= <-]|[H _]]; [exfalso; apply HV; eexists; reflexivity|discriminate]]|].
      split; [intros _; left; eexists; reflexivity|intros _; eexists; reflexivity].
    + split; [intros v HV; split; [auto|intros [H|[_ H]]; [discriminate|exact H]]|]. split; [auto|intros [(o & H)|H]; [discriminate|exact H]].
  - rewrite !jwalk_cons, lookup_jmerge by exact UB. destruct (lookup k b) as [w|] eqn:EB.
    + destruct w as [s|n|l|l].
      1-3: cbn [over]; assert (HA : match lookup k a with Some (JObj o') => jwalk o' (k2 :: r) | _ => None end = None)
        by (destruct (lookup k a) as [[]|] eqn:EA; try reflexivity; exfalso; specialize (AG []); rewrite !jwalk_one in AG; destruct (AG _ _ EA EB) as [AG' _]; destruct AG' as (o' & E); [eexists; reflexivity|discriminate]); rewrite HA;
        (split; [intros v HV; split; [discriminate|intros [H|[_ H]]; discriminate]|split; [intros (o & H); discriminate|intros [(o & H)|(o & H)]; discriminate]]).
      rewrite over_obj. pose proof (uniq_lookup k b _ UB EB) as UL. destruct (lookup k a) as [[s|n|la|la]|] eqn:EA; cbn [base].
      1-3: exfalso; specialize (AG []); rewrite !jwalk_one in AG; destruct (AG _ _ EA EB) as [_ AG']; destruct AG' as (o' & E); [eexists; reflexivity|discriminate].
      * rewrite <- jmerge_mg. apply IH; [exact UL|]. intros r' v w H1 H2. apply (AG (k2 :: r')); rewrite jwalk_cons; [rewrite EA|rewrite EB]; assumption.
      * rewrite <- jmerge_mg. assert (AG0 : agree [] l k2) by (intros r' v w H1; destruct r'; discriminate H1). destruct (IH k2 [] l UL AG0) as [I1 I2]. assert (E0 : jwalk [] (k2 :: r) = None) by (destruct r; reflexivity). rewrite E0 in *. split.
        -- intros v HV. rewrite I1 by exact HV. split; (intros [H|[_ H]]; [left; exact H|discriminate]).
        -- rewrite I2. split; (intros [H|(o & H)]; [left; exact H|discriminate]).
    + split; [intros v HV; split; [auto|intros [H|[_ H]]; [discriminate|exact H]]|]. split; [auto|intros [(o & H)|H]; [discriminate|exact H]].
Qed.

(** *** the elements of a document *)
Lemma comp_ind' (P : comp -> Prop) : (forall t i m kids, Forall P kids -> P (Comp t i m kids)) -> forall c, P c.
Proof. intros H. fix IH 1. intros [t i m kids]. apply H. induction kids as [|k kids IK]; constructor; [apply IH|exact IK]. Qed.
Inductive below : comp -> comp -> Prop :=
| below_self c : below c c
| below_kid e k c : In k (ckids c) -> below e k -> below e c.
Lemma populate_eq t i m kids s : populate (Comp t i m kids) s = fold_left (fun s c => populate c s) kids (set i (Comp t i m kids) s).
Proof. cbn [populate]. generalize (set i (Comp t i m kids) s). induction kids as [|k kids IH]; intros s'; cbn [fold_left]; [reflexivity|apply IH]. Qed.
(** what is stored: elements under their id; every id of an element is stored; nothing is lost *)
Lemma populate_spec c : forall s, (forall i e, lookup i (populate c s) = Some e -> (below e c /\ cid e = i) \/ lookup i s = Some e) /\
  (forall e, below e c -> lookup (cid e) (populate c s) <> None) /\ (forall i, lookup i s <> None -> lookup i (populate c s) <> None).
Proof.
  induction c as [t i m kids IH] using comp_ind'. intros s. rewrite populate_eq. set (c := Comp t i m kids).
  assert (G : forall l s, incl l kids -> (forall j e, lookup j (fold_left (fun s c => populate c s) l s) = Some e -> (below e c /\ cid e = j) \/ lookup j s = Some e) /\
    (forall k e, In k l -> below e k -> lookup (cid e) (fold_left (fun s c => populate c s) l s) <> None) /\ (forall j, lookup j s <> None -> lookup j (fold_left (fun s c => populate c s) l s) <> None)).
  { intros l. induction l as [|k l IL]; intros s' HI; cbn [fold_left]; [split; [auto|split; [intros k e []|auto]]|].
    assert (HK : In k kids) by (apply HI; left; reflexivity). rewrite Forall_forall in IH. destruct (IH k HK s') as (P1 & P2 & P3). destruct (IL (populate k s')) as (Q1 & Q2 & Q3); [intros x Hx; apply HI; right; exact Hx|]. split; [|split].
    - intros j e H. apply Q1 in H. destruct H as [H|H]; [left; exact H|]. apply P1 in H. destruct H as [[H1 H2]|H]; [left; split; [eapply below_kid; [exact HK|exact H1]|exact H2]|right; exact H].
    - intros k' e [<-|H] HB; [apply Q3, P2, HB|eapply Q2; eauto].
    - intros j H. apply Q3, P3, H. }
  destruct (G kids (set i c s) (incl_refl _)) as (G1 & G2 & G3). split; [|split].
  - intros j e H. apply G1 in H. destruct H as [H|H]; [left; exact H|]. destruct (string_dec i j) as [<-|N]; [rewrite lookup_set_same in H; injection H as <-; left; split; [constructor|reflexivity]|].
    rewrite lookup_set_other in H by exact N. right; exact H.
  - intros e H. inversion H as [c' E|e' k c' HK HB E1 E2]; subst; [apply G3; cbn [cid]; rewrite lookup_set_same; discriminate|eapply G2; eauto].
  - intros j H. apply G3. destruct (string_dec i j) as [<-|N]; [rewrite lookup_set_same; discriminate|rewrite lookup_set_other by exact N; exact H].
Qed.
Lemma populateAll_spec l : (forall i e, lookup i (populateAll l) = Some e -> cid e = i /\ exists p, In p l /\ below e p) /\
  (forall p e, In p l -> below e p -> lookup (cid e) (populateAll l) <> None).
Proof.
  unfold populateAll. assert (G : forall l s, (forall i e, lookup i (fold_left (fun m c => populate c m) l s) = Some e -> (cid e = i /\ exists p, In p l /\ below e p) \/ lookup i s = Some e) /\
    (forall p e, In p l -> below e p -> lookup (cid e) (fold_left (fun m c => populate c m) l s) <> None) /\ (forall i, lookup i s <> None -> lookup i (fold_left (fun m c => populate c m) l s) <> None)).
  { clear. induction l as [|c l IH]; intros s; cbn [fold_left]; [split; [auto|split; [intros p e []|auto]]|]. destruct (populate_spec c s) as (P1 & P2 & P3). destruct (IH (populate c s)) as (Q1 & Q2 & Q3). split; [|split].
    - intros i e H. apply Q1 in H. destruct H as [[H1 (p & H2 & H3)]|H]; [left; split; [exact H1|exists p; cbn; auto]|]. apply P1 in H. destruct H as [[H1 H2]|H]; [left; split; [exact H2|exists c; cbn; auto]|right; exact H].
    - intros p e [<-|H] HB; [apply Q3, P2, HB|eapply Q2; eauto].
    - intros i H. apply Q3, P3, H. }
  destruct (G l []) as (G1 & G2 & _). split; [|exact G2]. intros i e H. apply G1 in H. destruct H as [H|H]; [exact H|discriminate].
Qed.
Lemma lookup_In {A} k (l : list (string * A)) v : lookup k l = Some v -> In (k, v) l.
Proof. induction l as [|[k' v'] l IH]; cbn [lookup]; [discriminate|]. destruct (String.eqb_spec k k') as [<-|N]; [intros [= <-]; left; reflexivity|right; auto]. Qed.
Lemma In_lookup {A} k (l : list (string * A)) v : NoDup (map fst l) -> In (k, v) l -> lookup k l = Some v.
Proof.
  induction l as [|[k' v'] l IH]; cbn [lookup map fst In]; [intros _ []|]. intros ND [H|H]; inversion ND as [|? ? HN ND']; subst; [injection H as <- <-; rewrite String.eqb_refl; reflexivity|].
  destruct (String.eqb_spec k k') as [<-|N]; [exfalso; apply HN; apply in_map_iff; exists (k, v); auto|auto].
Qed.
Lemma populate_nodup c : forall s, NoDup (map fst s) -> NoDup (map fst (populate c s)).
Proof.
  induction c as [t i m kids IH] using comp_ind'. intros s H. rewrite populate_eq. assert (H' : NoDup (map fst (set i (Comp t i m kids) s))) by (apply set_nodup, H). generalize dependent (set i (Comp t i m kids) s). clear H s.
  intros s H. revert s H. induction IH as [|k kids Hk _ IL]; intros s H; cbn [fold_left]; [exact H|]. apply IL, Hk, H.
Qed.
Lemma populateAll_nodup l : NoDup (map fst (populateAll l)).
Proof. unfold populateAll. assert (G : forall l s, NoDup (map fst s) -> NoDup (map fst (fold_left (fun m c => populate c m) l s))) by (clear; induction l as [|c l IH]; intros s H; cbn [fold_left]; [exact H|apply IH, populate_nodup, H]). apply G. constructor. Qed.
