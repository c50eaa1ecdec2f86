(** C101, continued: which messages a log keeps, and which static fields it has, after any sequence of calls. *)
From Coq Require Import String List Arith ZArith Bool Lia.
From Verif Require Import Num DynModel DynProofs Prop_C27 MergeProofs LogModel Prop_C45 LogFields Prop_C101.
Import ListNotations.
Local Open Scope string_scope.
Local Open Scope list_scope.

(** the calls as C45 has them, which speaks of messages only *)
Definition callOf (a : act) : list call :=
  match a with ANew => [CNew] | AChild i => [CChild i] | ALog i lev text _ => [CLog i (lev, text)] | _ => [] end.
Definition agrees (g : log) (l : flog) : Prop := l_messages g = map (fun e => (e_level e, e_text e)) (f_entries l) /\ l_parent g = f_parent l.

Lemma agrees_nth s logs i : Forall2 agrees s logs -> match nth_error s i, nth_error logs i with Some g, Some l => agrees g l | None, None => True | _, _ => False end.
Proof. intros F. revert i. induction F as [|g l s logs A F IH]; intros [|i]; cbn; auto. apply IH. Qed.
Lemma agrees_update s logs i e : Forall2 agrees s logs -> Forall2 agrees (update i (addMsg (e_level e, e_text e)) s) (change i (addEntry e) logs).
Proof.
  intros F. revert i. induction F as [|g l s logs A F IH]; intros [|i]; cbn; constructor; auto. destruct A as [A1 A2]. split; cbn; [|exact A2]. rewrite map_app, A1. reflexivity.
Qed.
Lemma agrees_change s logs i f : (forall l, f_entries (f l) = f_entries l /\ f_parent (f l) = f_parent l) -> Forall2 agrees s logs -> Forall2 agrees s (change i f logs).
Proof.
  intros H F. revert i. induction F as [|g l s logs [A1 A2] F IH]; intros [|i]; cbn; constructor; auto; try (split; auto); destruct (H l) as [H1 H2]; congruence.
Qed.
Lemma perform_agrees fuel s w a w' : Forall2 agrees s (w_logs w) -> perform fuel w a = Ok w' -> Forall2 agrees (fold_left step (callOf a) s) (w_logs w').
Proof.
  intros F E. destruct a as [|i|i lv|i k v|i lv text now]; cbn [perform callOf fold_left step] in *.
  - injection E as <-. cbn. apply Forall2_app; auto. repeat constructor.
  - unfold newChild in E. destruct (nth_error (w_logs w) i) as [l0|] eqn:NI; [|discriminate]. injection E as <-. cbn. apply Forall2_app; auto. repeat constructor.
  - destruct (nth_error (w_logs w) i) as [l0|] eqn:NI; [|discriminate]. injection E as <-. cbn. apply agrees_change; auto.
  - destruct (nth_error (w_logs w) i) as [l0|] eqn:NI; [|discriminate]. injection E as <-. exact F.
  - cbn [alloc] in E. unfold logf in E. cbn [w_logs w_heap w_printed] in E. destruct (nth_error (w_logs w) i) as [l0|] eqn:NI; [|discriminate].
    destruct (withStatic _ _ _ _) as [[c h1]| | |]; try discriminate. cbn [bind fst snd] in E. set (m := mkEntry c now lv text) in *.
    pose proof (agrees_update _ _ i m F) as F1. pose proof (agrees_nth _ _ i F) as N. rewrite NI in N. unfold Logf. destruct (nth_error s i) as [g|] eqn:GI; [|destruct N].
    destruct N as [_ ->]. change (lv, text) with (e_level m, e_text m). destruct (f_parent l0) as [p|]; [|injection E as <-; exact F1].
    unfold logFromChild in E. destruct (nth_error (change i (addEntry m) (w_logs w)) p) as [lp|]; [|discriminate].
    destruct (withStatic _ _ _ _) as [[c2 h2]| | |]; try discriminate. cbn [bind fst snd] in E. injection E as <-. cbn [w_logs].
    apply (agrees_update _ _ p (mkEntry c2 (e_time m) (e_level m) (e_text m)) F1).
Qed.
Lemma run_app h c : run (h ++ c) = fold_left step c (run h). Proof. apply fold_left_app. Qed.
Lemma agrees_length s logs : Forall2 agrees s logs -> length s = length logs. Proof. induction 1; cbn; auto. Qed.
Lemma perform_valid fuel h w a w' : valid 0 h -> Forall2 agrees (run h) (w_logs w) -> perform fuel w a = Ok w' -> valid 0 (h ++ callOf a).
Proof.
  intros V F E. pose proof (agrees_length _ _ F) as L. rewrite (proj1 (run_spec h V)) in L.
  assert (B : forall i l, nth_error (w_logs w) i = Some l -> i < 0 + length (created h)) by (intros i l N; cbn; rewrite L; apply nth_error_Some; congruence).
  destruct a as [|i|i lv|i k v|i lv text now]; cbn [perform callOf] in *; try (rewrite app_nil_r; exact V).
  - apply valid_snoc. auto.
  - apply valid_snoc. split; auto. unfold newChild in E. destruct (nth_error (w_logs w) i) eqn:N; [eapply B; eauto|discriminate].
  - apply valid_snoc. split; auto. cbn [alloc] in E. unfold logf in E. cbn [w_logs] in E. destruct (nth_error (w_logs w) i) eqn:N; [eapply B; eauto|discriminate].
Qed.

(** After any sequence of calls a log keeps the messages logged on it or on a log derived from it, in order and nothing else. *)
Theorem C101_messages fuel acts w i l : performs fuel start acts = Ok w -> nth_error (w_logs w) i = Some l ->
  map (fun e => (e_level e, e_text e)) (f_entries l) = heard (flat_map callOf acts) i.
Proof.
  assert (G : forall cs h w0, valid 0 h -> Forall2 agrees (run h) (w_logs w0) -> performs fuel w0 cs = Ok w -> valid 0 (h ++ flat_map callOf cs) /\ Forall2 agrees (run (h ++ flat_map callOf cs)) (w_logs w)).
  { induction cs as [|a q IH]; intros h w0 V F E; [injection E as <-; cbn; rewrite app_nil_r; auto|]. cbn [performs] in E. destruct (perform fuel w0 a) as [w1| | |] eqn:P; try discriminate.
    cbn [flat_map]. rewrite app_assoc. apply (IH (h ++ callOf a) w1); auto; [eapply perform_valid; eauto|]. rewrite run_app. eapply perform_agrees; eauto. }
  intros E N. destruct (G acts [] start I (Forall2_nil _) E) as [V F]. cbn [app] in *. pose proof (agrees_nth _ _ i F) as A. rewrite N in A.
  destruct (nth_error (run (flat_map callOf acts)) i) as [g|] eqn:GI; [|destruct A]. destruct A as [<- _]. apply C45_messages; auto.
Qed.
Print Assumptions C101_messages.
Example C101_messages_example :
  let calls := [ANew; AChild 0; ALog 1 Error "no path" 1; AChild 1; ALog 2 Info "done" 2; ALog 0 Info "end" 3] in
  match performs 3 start calls with
  | Ok w => map (fun l => map e_text (f_entries l)) (w_logs w) = [["no path"; "end"]; ["no path"; "done"]; ["done"]]
  | _ => False
  end /\ heard (flat_map callOf calls) 1 = [(Error, "no path"); (Info, "done")].
Proof. vm_compute. split; reflexivity. Qed.

(** *** static fields *)
Definition scalar (v : val) : Prop := match v with VMap _ | VStrMap _ => False | _ => True end.
Definition flat (h : heap) (a : nat) : Prop := forall k v, In (k, v) (hcell h a) -> scalar v.

Lemma put_flat h a k v : flat h a -> scalar v -> flat (Put h a k v) a.
Proof. intros F S k' v' I. unfold Put in I. rewrite store_same in I. apply set_in in I as [->|I]; [auto|eapply F; eauto]. Qed.
Lemma merge_flat f h a b : a <> b -> flat h a -> flat h b -> exists h', Merge (S f) h a b = Ok h' /\ hnext h' = hnext h /\ (forall x, x <> a -> hcell h' x = hcell h x) /\ flat h' a.
Proof.
  intros D FA FB. cbn [Merge].
  assert (G : forall l h0, (forall k v, In (k, v) l -> In (k, v) (hcell h b)) -> hnext h0 = hnext h -> (forall x, x <> a -> hcell h0 x = hcell h x) -> flat h0 a ->
    exists h', (fix loop (l : list (string * val)) (h : heap) : res heap :=
         match l with
         | [] => Ok h
         | (key, value) :: r =>
             bind (match GetDynMap h b key with
                   | Some (m, h1) =>
                       match GetDynMap h1 a key with
                       | Some (m2, h2) => Merge f h2 m2 m
                       | None => let '(c, h2) := alloc h1 in bind (Merge f h2 c m) (fun h3 => Ok (Put h3 a key (VMap c)))
                       end
                   | None => Ok (Put h a key value)
                   end) (fun h' => loop r h')
         end) l h0 = Ok h' /\ hnext h' = hnext h /\ (forall x, x <> a -> hcell h' x = hcell h x) /\ flat h' a).
  { induction l as [|[k v] r IH]; intros h0 SUB N F FL; [exists h0; auto|].
    assert (CB : hcell h0 b = hcell h b) by (apply F; congruence).
    assert (GD : GetDynMap h0 b k = None).
    { unfold GetDynMap, Get. rewrite CB. pose proof (SUB k v (or_introl eq_refl)) as I. destruct (lookup k (hcell h b)) as [u|] eqn:L.
      - apply lookup_In in L. apply FB in L. destruct u; try reflexivity; destruct L.
      - exfalso. clear - I L. induction (hcell h b) as [|[k0 v0] q IHq]; [destruct I|]. cbn in L. destruct (String.eqb_spec k k0) as [->|NE]; [discriminate|].
        destruct I as [I|I]; [injection I as -> _; congruence|auto]. }
    rewrite GD. cbn [bind]. apply IH; [intros; apply SUB; right; auto|exact N| |].
    - intros x X. unfold Put. rewrite store_other by congruence. auto.
    - apply put_flat; auto. apply (FB k). apply SUB. left. reflexivity. }
  apply G; auto.
Qed.
Lemma withStatic_flat f h a b : a < hnext h -> b < hnext h -> flat h a -> flat h b -> exists c h', withStatic (S f) h a b = Ok (c, h') /\
  hnext h <= hnext h' /\ (forall x, x < hnext h -> hcell h' x = hcell h x) /\ c < hnext h' /\ flat h' c.
Proof.
  intros A B FA FB. unfold withStatic. destruct (IsEmpty h a).
  - exists b, h. auto.
  - unfold Clone. cbn [alloc]. change (mkHeap _ _) with (snd (alloc h)). set (h1 := snd (alloc h)). set (e := hnext h).
    assert (EE : hcell h1 e = []) by apply alloc_new. assert (F1 : forall x, x < hnext h -> hcell h1 x = hcell h x) by (intros; apply alloc_old; auto).
    destruct (merge_flat f h1 e a) as (h2 & E2 & N2 & F2 & FL2).
    { unfold e. lia. } { intros k v I. rewrite EE in I. destruct I. } { intros k v I. rewrite F1 in I by auto. eapply FA; eauto. }
    destruct (merge_flat f h2 e b) as (h3 & E3 & N3 & F3 & FL3); [unfold e; lia|auto| |].
    { intros k v I. rewrite F2 in I by (unfold e; lia). rewrite F1 in I by auto. eapply FB; eauto. }
    rewrite E2. cbn [bind fst snd]. rewrite E3. exists e, h3. split; [reflexivity|]. rewrite N3, N2. cbn [h1 alloc snd hnext]. split; [lia|]. split; [|split; [unfold e; lia|auto]].
    intros x X. rewrite F3, F2 by (unfold e; lia). auto.
Qed.

(** of a history, the latest call first: what was put last as the static field [k] of log [i] *)
Fixpoint lastStatic (r : list act) (i : nat) (k : string) : option val :=
  match r with
  | [] => None
  | AStatic j k' v :: q => if Nat.eqb i j && String.eqb k k' then Some v else lastStatic q i k
  | _ :: q => lastStatic q i k
  end.
Definition plainAct (a : act) : Prop := match a with AStatic _ _ v => scalar v | _ => True end.
Record statics (r : list act) (w : world) : Prop := mkStatics {
  st_len : length (w_logs w) = made r;
  st_new : forall i k, length (w_logs w) <= i -> lastStatic r i k = None;
  st_log : forall i l, nth_error (w_logs w) i = Some l -> f_static l < hnext (w_heap w) /\ flat (w_heap w) (f_static l) /\ forall k, lookup k (hcell (w_heap w) (f_static l)) = lastStatic r i k;
  st_inj : forall i j l m, nth_error (w_logs w) i = Some l -> nth_error (w_logs w) j = Some m -> f_static l = f_static m -> i = j }.

Lemma statics_grow r w l0 pr h : statics r w -> f_static l0 = hnext (w_heap w) -> h = snd (alloc (w_heap w)) -> forall a, (a = ANew \/ exists i, a = AChild i) ->
  statics (a :: r) (mkWorld h (w_logs w ++ [l0]) pr).
Proof.
  intros [SL SN SO SI] S0 -> a A. assert (LS : forall i k, lastStatic (a :: r) i k = lastStatic r i k) by (destruct A as [->|[j ->]]; reflexivity).
  assert (MD : made (a :: r) = S (made r)) by (destruct A as [->|[j ->]]; reflexivity).
  constructor; cbn [w_logs w_heap].
  - rewrite app_length, MD. cbn. lia.
  - intros i k. rewrite app_length, LS. cbn. intros B. apply SN. lia.
  - intros i l N. apply nth_snoc in N as [[-> ->]|[B N]].
    + rewrite S0. split; [cbn; lia|]. split; [intros k v I; rewrite alloc_new in I; destruct I|]. intros k. rewrite alloc_new, LS, SN by lia. reflexivity.
    + destruct (SO i l N) as (X & Y & Z). split; [cbn; lia|]. split; [intros k v I; rewrite alloc_old in I by auto; eapply Y; eauto|]. intros k. rewrite alloc_old, LS by auto. apply Z.
  - intros i j l m N1 N2 E. apply nth_snoc in N1 as [[-> ->]|[B1 N1]]; apply nth_snoc in N2 as [[-> ->]|[B2 N2]]; auto.
    + destruct (SO _ _ N2) as (X & _). lia.
    + destruct (SO _ _ N1) as (X & _). lia.
    + eapply SI; eauto.
Qed.
Lemma change_static i f s j l : (forall l, f_static (f l) = f_static l) -> nth_error (change i f s) j = Some l -> exists l0, nth_error s j = Some l0 /\ f_static l = f_static l0.
Proof.
  intros F E. destruct (Nat.eq_dec j i) as [->|D].
  - rewrite change_same in E. destruct (nth_error s i) as [l0|]; [|discriminate]. injection E as <-. eauto.
  - rewrite change_other in E by auto. eauto.
Qed.
(** the logs may gain messages, and new maps may appear *)
Lemma statics_same r w h s pr a : statics r w -> length s = length (w_logs w) -> (forall j l, nth_error s j = Some l -> exists l0, nth_error (w_logs w) j = Some l0 /\ f_static l = f_static l0) ->
  hnext (w_heap w) <= hnext h -> (forall x, x < hnext (w_heap w) -> hcell h x = hcell (w_heap w) x) -> (forall i k, lastStatic (a :: r) i k = lastStatic r i k) -> made (a :: r) = made r ->
  statics (a :: r) (mkWorld h s pr).
Proof.
  intros [SL SN SO SI] LEN SUB NX FR LS MD. constructor; cbn [w_logs w_heap].
  - lia.
  - intros i k B. rewrite LS. apply SN. lia.
  - intros i l N. destruct (SUB i l N) as (l0 & N0 & ->). destruct (SO i l0 N0) as (X & Y & Z). split; [lia|]. split; [intros k v I; rewrite FR in I by auto; eapply Y; eauto|].
    intros k. rewrite FR, LS by auto. apply Z.
  - intros i j l m N1 N2 E. destruct (SUB i l N1) as (l0 & N0 & E0). destruct (SUB j m N2) as (m0 & M0 & F0). eapply SI; eauto. congruence.
Qed.
Lemma perform_statics f r w a w' : plainAct a -> statics r w -> perform (S f) w a = Ok w' -> statics (a :: r) w'.
Proof.
  intros PA ST E. destruct a as [|i|i lv|i k v|i lv text now]; cbn [perform] in E.
  - injection E as <-. apply (statics_grow r w (mkFlog Error [] (hnext (w_heap w)) None)); auto.
  - unfold newChild in E. destruct (nth_error (w_logs w) i) as [l0|] eqn:NI; [|discriminate]. injection E as <-.
    apply (statics_grow r w (mkFlog (f_stdout l0) [] (hnext (w_heap w)) (Some i))); eauto.
  - destruct (nth_error (w_logs w) i) as [l0|] eqn:NI; [|discriminate]. injection E as <-. apply (statics_same r w); auto; [apply change_length|].
    intros j l N. eapply change_static; [|exact N]. reflexivity.
  - destruct (nth_error (w_logs w) i) as [l0|] eqn:NI; [|discriminate]. injection E as <-. destruct ST as [SL SN SO SI]. constructor; cbn [w_logs w_heap]; auto.
    + intros j k0 B. cbn [lastStatic]. destruct (Nat.eqb_spec j i) as [->|D]; [|cbn; apply SN; auto]. exfalso. assert (i < length (w_logs w)); [apply nth_error_Some; congruence|lia].
    + intros j l N. destruct (SO j l N) as (X & Y & Z). split; [exact X|]. destruct (Nat.eq_dec j i) as [->|D].
      * rewrite NI in N. injection N as <-. split; [apply put_flat; auto|]. intros k0. cbn [lastStatic]. rewrite Nat.eqb_refl. cbn [andb]. unfold Put. rewrite store_same.
        destruct (String.eqb_spec k0 k) as [->|D]; [apply lookup_set_same|rewrite lookup_set_other by congruence; apply Z].
      * assert (NE : f_static l0 <> f_static l) by (intros Q; apply D; eapply SI; eauto). split.
        -- intros k0 v0 I. unfold Put in I. rewrite store_other in I by auto. eapply Y; eauto.
        -- intros k0. cbn [lastStatic]. destruct (Nat.eqb_spec j i); [congruence|]. cbn [andb]. unfold Put. rewrite store_other by auto. apply Z.
  - cbn [alloc] in E. unfold logf in E. cbn [w_logs w_heap w_printed] in E. destruct (nth_error (w_logs w) i) as [l0|] eqn:NI; [|discriminate].
    change (mkHeap _ _) with (snd (alloc (w_heap w))) in E. set (h0 := snd (alloc (w_heap w))) in *.
    assert (FR0 : forall x, x < hnext (w_heap w) -> hcell h0 x = hcell (w_heap w) x) by (intros; apply alloc_old; auto). assert (N0 : hnext h0 = S (hnext (w_heap w))) by reflexivity.
    assert (OLD : forall h1 j l, hnext h0 <= hnext h1 -> (forall x, x < hnext h0 -> hcell h1 x = hcell h0 x) -> nth_error (w_logs w) j = Some l -> f_static l < hnext h1 /\ flat h1 (f_static l)).
    { intros h1 j l B1 B2 N. destruct (st_log _ _ ST j l N) as (X & Y & _). split; [lia|]. intros k v I. rewrite B2, FR0 in I by lia. eapply Y; eauto. }
    destruct (OLD h0 i l0 (le_n _) (fun x _ => eq_refl) NI) as [X0 Y0].
    destruct (withStatic_flat f h0 (f_static l0) (hnext (w_heap w)) X0) as (c & h1 & E1 & N1 & F1 & C1 & FL1); [lia|exact Y0|intros k v I; unfold h0 in I; rewrite alloc_new in I; destruct I|].
    rewrite E1 in E. cbn [bind fst snd] in E. set (m := mkEntry c now lv text) in *.
    assert (S1 : forall j l, nth_error (change i (addEntry m) (w_logs w)) j = Some l -> exists l1, nth_error (w_logs w) j = Some l1 /\ f_static l = f_static l1)
      by (intros j l N; eapply change_static; [|exact N]; reflexivity).
    destruct (f_parent l0) as [p|].
    + unfold logFromChild in E. destruct (nth_error (change i (addEntry m) (w_logs w)) p) as [lp|] eqn:NP; [|discriminate]. destruct (S1 _ _ NP) as (lp0 & NP0 & SP).
      destruct (OLD h1 p lp0 N1 F1 NP0) as [X1 Y1]. rewrite <- SP in X1, Y1. destruct (withStatic_flat f h1 (f_static lp) c X1 C1 Y1 FL1) as (c2 & h2 & E2 & N2 & F2 & C2 & FL2).
      cbn [e_fields m] in E. rewrite E2 in E. cbn [bind fst snd] in E. injection E as <-. apply (statics_same r w); auto.
      * rewrite !change_length. reflexivity.
      * intros j l N. apply change_static in N as (l1 & N & ->); [|reflexivity]. apply S1; auto.
      * lia.
      * intros x X. rewrite F2, F1, FR0 by lia. reflexivity.
    + cbn [bind fst snd] in E. injection E as <-. apply (statics_same r w); auto; [apply change_length|lia|]. intros x X. rewrite F1, FR0 by lia. reflexivity.
Qed.

(** After any sequence of calls the static fields of a log are those put on this log, the last value of each: neither its parent, nor its children, nor logging changes them.
    ([scalar]: the values put are numbers, texts and the like, not maps.) *)
Theorem C101_static f acts w i l k : Forall plainAct acts -> performs (S f) start acts = Ok w -> nth_error (w_logs w) i = Some l ->
  lookup k (hcell (w_heap w) (f_static l)) = lastStatic (rev acts) i k.
Proof.
  assert (G : forall cs r w0, Forall plainAct cs -> statics r w0 -> performs (S f) w0 cs = Ok w -> statics (rev cs ++ r) w).
  { induction cs as [|a q IH]; intros r w0 PL S E; [injection E as <-; exact S|]. inversion PL; subst. cbn [performs] in E. destruct (perform (Datatypes.S f) w0 a) as [w1| | |] eqn:P; try discriminate.
    cbn [rev]. rewrite <- app_assoc. apply (IH (a :: r) w1); auto. eapply perform_statics; eauto. }
  intros PL E N. assert (S : statics [] start) by (constructor; cbn; auto; intros [|j]; discriminate).
  pose proof (G acts [] start PL S E) as ST. rewrite app_nil_r in ST. apply (st_log _ _ ST i l N).
Qed.
Print Assumptions C101_static.
Example C101_static_example :
  let calls := [ANew; AStatic 0 "run" (VInt 1); AChild 0; AStatic 1 "filename" (VStr "box.hfd"); ALog 1 Error "no path" 1; AStatic 0 "run" (VInt 2); AChild 0] in
  Forall plainAct calls /\ match performs 3 start calls with
  | Ok w => map (fun l => hcell (w_heap w) (f_static l)) (w_logs w) = [[("run", VInt 2)]; [("filename", VStr "box.hfd")]; []]
  | _ => False
  end.
Proof. split; [repeat constructor|vm_compute; reflexivity]. Qed.
