(** C31: parameter lookup always terminates. *)
From Coq Require Import String Ascii List ZArith Bool Arith Lia.
From Coq.Floats Require Import SpecFloat.
From Verif Require Import Num DynModel ParamModel.
Import ListNotations.
Local Open Scope string_scope.
Local Open Scope list_scope.

(** [settles n g]: with [n] nested calls or more the computation ends, always with the same answer *)
Definition settles {A : Type} (n : nat) (g : nat -> res A) : Prop := exists a, forall fuel, n <= fuel -> g fuel = Ok a.

Lemma settles_ok {A} n (a : A) : settles n (fun _ => Ok a). Proof. exists a. auto. Qed.
Lemma settles_bind {A B} n (g : nat -> res A) (k : A -> nat -> res B) : settles n g -> (forall a, settles n (k a)) -> settles n (fun f => bind (g f) (fun a => k a f)).
Proof. intros [a H] K. destruct (K a) as [b Hb]. exists b. intros f Hf. rewrite H by auto. apply Hb. auto. Qed.
Lemma settles_le {A} n m (g : nat -> res A) : n <= m -> settles n g -> settles m g.
Proof. intros L [a H]. exists a. intros f Hf. apply H. lia. Qed.
Lemma settles_S {A} n (g k : nat -> res A) : (forall f, g (S f) = k f) -> settles n k -> settles (S n) g.
Proof. intros E [a H]. exists a. intros [|f] Hf; [lia|]. rewrite E. apply H. lia. Qed.
Lemma settles_ext {A} n (g k : nat -> res A) : (forall f, g f = k f) -> settles n k -> settles n g.
Proof. intros E [a H]. exists a. intros f Hf. rewrite E. auto. Qed.

Lemma local_settles h e : forall k r p, 21 - r <= k -> settles (S k) (fun f => localLookup f h e p r).
Proof.
  induction k as [|k IH]; intros r p Hk.
  - apply (settles_S 0 _ (fun _ => Ok None)); [|apply settles_ok]. intros f. cbn [localLookup]. unfold maxRecursion. destruct (Nat.ltb_spec 20 r); [reflexivity|lia].
  - eapply settles_S; [intros f; cbn [localLookup]; reflexivity|]. destruct (Nat.ltb maxRecursion r); [apply settles_ok|].
    destruct (localGet h e p) as [v|].
    + destruct v; try apply settles_ok. apply IH. lia.
    + destruct (Nat.ltb 0 r); apply settles_ok.
Qed.

(** all components have a parent, up to the document *)
Fixpoint rooted (c : chain) : Prop := match c with Root _ => True | Child _ p => rooted p | Orphan _ => False end.

Lemma lookup_settles h : forall c p, rooted c -> settles 22 (fun f => Lookup f h c p).
Proof.
  induction c as [e|e par IH|e]; intros p R; [| |destruct R].
  - apply (settles_ext 22 _ (fun f => bind (localLookup f h e p 0) (fun o => Ok o))).
    + intros f. cbn [Lookup self]. destruct (localLookup f h e p 0) as [[v|]| | |]; try reflexivity. destruct v; reflexivity.
    + apply settles_bind; [apply local_settles; lia|intros; apply settles_ok].
  - cbn [Lookup self]. apply settles_bind; [apply local_settles; lia|]. intros [v|].
    + destruct v; try apply settles_ok. apply settles_bind; [apply IH; auto|]. intros [v1|]; apply settles_ok.
    + apply IH. auto.
Qed.

(** Looking a parameter up through the enclosing elements ends after at most 22 nested calls, whatever refers to whatever. *)
Theorem C31_lookup h c p : rooted c -> exists o, forall fuel, 22 <= fuel -> Lookup fuel h c p = Ok o.
Proof. apply lookup_settles. Qed.
Print Assumptions C31_lookup.

Lemma default_settles h n (rz : nat -> string -> val -> nat -> res (option val)) : forall c p r, rooted c -> (forall v r', r <= r' -> settles n (fun f => rz f p v r')) ->
  settles n (fun f => lookupDefault h (rz f) c p r).
Proof.
  induction c as [e|e par IH|e]; intros p r R H; [| |destruct R]; cbn [lookupDefault self].
  - destruct (mapGet h (Defaults h e) p); [apply H; lia|apply settles_ok].
  - destruct (mapGet h (Defaults h e) p); [apply H; lia|]. apply IH; auto. intros v r' Hr. apply H. lia.
Qed.
Lemma attr_settles h b : rooted (at_elem b) -> forall n r p, 13 - r <= n -> settles (23 + n) (fun f => attrLookup f h b p r).
Proof.
  intros R. induction n as [|n IH]; intros r p Hn; rewrite ?Nat.add_succ_r; (eapply settles_S; [intros f; cbn [attrLookup]; reflexivity|]).
  - unfold recursionMax. destruct (Nat.ltb_spec 12 r); [apply settles_ok|lia].
  - unfold recursionMax. destruct (Nat.ltb_spec 12 r); [apply settles_ok|].
    assert (RZ : forall q v r', r <= r' -> settles (22 + S n) (fun f => match v with
          | VStr s => if String.eqb s q then Ok None else bind (attrLookup f h b s (S r')) (fun o => match o with Some v2 => Ok (Some v2) | None => Ok (Some (VStr s)) end)
          | _ => Ok (Some v) end)).
    { intros q v r' Hr. destruct v; try apply settles_ok. destruct (String.eqb s q); [apply settles_ok|].
      apply (settles_bind _ (fun f => attrLookup f h b s (S r'))); [apply (settles_le (23 + n)); [lia|]; apply IH; lia|]. intros [v2|]; apply settles_ok. }
    apply (settles_bind (22 + S n) (fun f => match Get h (at_mp b) p with Some v => _ | None => Ok None end)).
    + destruct (Get h (at_mp b) p) as [v|]; [apply RZ; lia|apply settles_ok].
    + intros [v2|]; [apply settles_ok|]. apply (settles_bind _ (fun f => Lookup f h (at_elem b) p)); [apply (settles_le 22); [lia|]; apply lookup_settles; auto|].
      intros [v|]; [apply settles_ok|]. apply (default_settles h (22 + S n) (fun f q v r' => _)); auto.
Qed.

(** So does looking up an attribute, with its own map, the enclosing elements and the defaults, after at most 36 nested calls. *)
Theorem C31_attribute h b p : rooted (at_elem b) -> exists o, forall fuel, 36 <= fuel -> attrLookup fuel h b p 0 = Ok o.
Proof. intros R. apply (attr_settles h b R 13 0 p). lia. Qed.
Print Assumptions C31_attribute.
Theorem C31_string L h b p : rooted (at_elem b) -> exists o, forall fuel, 36 <= fuel -> attrString L fuel h b p = Ok o.
Proof.
  intros R. change (settles 36 (fun f => attrString L f h b p)). unfold attrString.
  apply (settles_bind _ (fun f => attrLookup f h b p 0)); [apply (attr_settles h b R 13 0 p); lia|]. intros [w|]; [|apply settles_ok].
  cbn zeta. destruct (plain (ToString L w)); [|apply settles_ok].
  apply (settles_bind _ (fun f => Lookup f h (at_elem b) (ToString L w))); [apply (settles_le 22); [lia|]; apply lookup_settles; auto|]. intros [u|]; apply settles_ok.
Qed.
Print Assumptions C31_string.

(** *** expressions *)
(** constants in [Q], variables in [P], calls if allowed, with an argument *)
Fixpoint exprAll (Q : val -> Prop) (P : string -> Prop) (calls : bool) (e : expr) : Prop :=
  match e with
  | EVar name => P name
  | EConst v => Q v
  | EUn _ e1 => exprAll Q P calls e1
  | EBin _ e1 e2 => exprAll Q P calls e1 /\ exprAll Q P calls e2
  | ECall _ args => calls = true /\ args <> [] /\ fold_right (fun e R => exprAll Q P calls e /\ R) True args
  end.

Section Settle.
Context (L : Lang) (h : heap) (Q : val -> Prop) (P : string -> Prop) (calls : bool).
Context (Hun : forall op v w, unop L op v = Some w -> Q w) (Hbin : forall op v v2 w, binop L op v v2 = Some w -> Q w).
(** an evaluation that ends with a value in [Q] and a count not below [cnt] *)
Definition settlesE (n cnt : nat) (g : nat -> evaluated) : Prop :=
  exists o, (forall fuel, n <= fuel -> g fuel = Ok o) /\ forall v c, o = Some (v, c) -> Q v /\ cnt <= c.

Lemma settlesE_none n cnt : settlesE n cnt (fun _ => Ok None). Proof. exists None. split; [auto|discriminate]. Qed.
Lemma settlesE_some n cnt v c : Q v -> cnt <= c -> settlesE n cnt (fun _ => Ok (Some (v, c))).
Proof. intros HQ H. exists (Some (v, c)). split; [auto|]. intros v' c' E. injection E as <- <-. auto. Qed.
Lemma settlesE_bind n cnt (g : nat -> evaluated) (k : option (val * nat) -> nat -> evaluated) : settlesE n cnt g -> settlesE n cnt (k None) ->
  (forall v c, Q v -> cnt <= c -> settlesE n cnt (k (Some (v, c)))) -> settlesE n cnt (fun f => bind (g f) (fun a => k a f)).
Proof.
  intros (o & H & HC) K0 K1. assert (K : settlesE n cnt (k o)). { destruct o as [[v c]|]; [|exact K0]. destruct (HC v c eq_refl). auto. }
  destruct K as (o2 & H2 & HC2). exists o2. split; [|exact HC2]. intros f Hf. rewrite H by auto. apply H2. auto.
Qed.
Lemma settlesE_weak n cnt cnt' g : cnt' <= cnt -> settlesE n cnt g -> settlesE n cnt' g.
Proof. intros H (o & H1 & H2). exists o. split; auto. intros v c E. destruct (H2 v c E). split; [auto|lia]. Qed.

Lemma tree_settles n (get : nat -> string -> nat -> evaluated) (call : nat -> string -> list val -> res (option val)) cnt0 :
  (forall name cnt, P name -> cnt0 <= cnt -> settlesE n cnt (fun f => get f name cnt)) ->
  (calls = true -> forall fn vs, vs <> [] -> Forall Q vs -> exists o, (forall f, n <= f -> call f fn vs = Ok o) /\ forall v, o = Some v -> Q v) ->
  forall e cnt, exprAll Q P calls e -> cnt0 <= cnt -> settlesE n cnt (fun f => evalTree L (get f) (call f) e cnt).
Proof.
  intros HG HC. fix IH 1. intros e cnt A Hc. destruct e as [name|v|op e1|op e1 e2|fn args]; cbn [evalTree exprAll] in *.
  - apply HG; auto.
  - apply settlesE_some; auto.
  - apply settlesE_bind; [apply IH; auto|apply settlesE_none|]. intros v c HQ Hcc. destruct (unop L op v) eqn:E; [apply settlesE_some; eauto|apply settlesE_none].
  - destruct A as [A1 A2]. apply settlesE_bind; [apply IH; auto|apply settlesE_none|]. intros v c HQ Hcc.
    apply (settlesE_weak n c cnt); auto. apply (settlesE_bind n c (fun f => evalTree L (get f) (call f) e2 c)); [apply IH; auto; lia|apply settlesE_none|].
    intros w c2 HQ2 Hc2. destruct (binop L op v w) eqn:E; [apply settlesE_some; eauto|apply settlesE_none].
  - destruct A as (AC & AN & AA).
    assert (GO : exists o, (forall f, n <= f -> (fix go (l : list expr) (c : nat) : res (option (list val * nat)) :=
               match l with
               | [] => Ok (Some ([], c))
               | e1 :: r => bind (evalTree L (get f) (call f) e1 c) (fun o => match o with
                              | None => Ok None
                              | Some (v, c1) => bind (go r c1) (fun o2 => match o2 with None => Ok None | Some (vs, c2) => Ok (Some (v :: vs, c2)) end)
                              end)
               end) args cnt = Ok o) /\ forall vs c, o = Some (vs, c) -> Forall Q vs /\ cnt <= c /\ length vs = length args).
    { clear AN. revert cnt Hc. induction args as [|e1 r IHr]; intros cnt Hc.
      - exists (Some ([], cnt)). split; [auto|]. intros vs c E. injection E as <- <-. auto.
      - destruct AA as [A1 A2]. destruct (IH e1 cnt A1 Hc) as (o1 & H1 & C1). destruct o1 as [[v c1]|].
        + destruct (C1 v c1 eq_refl) as [HQ Hc1]. destruct (IHr A2 c1 ltac:(lia)) as (o2 & H2 & C2). destruct o2 as [[vs c2]|].
          * destruct (C2 vs c2 eq_refl) as (F & Hc2 & Hl). exists (Some (v :: vs, c2)). split.
            -- intros f Hf. rewrite H1 by auto. cbn [bind]. rewrite H2 by auto. reflexivity.
            -- intros vs' c' E. injection E as <- <-. split; [constructor; auto|]. split; [lia|cbn; lia].
          * exists None. split; [|discriminate]. intros f Hf. rewrite H1 by auto. cbn [bind]. rewrite H2 by auto. reflexivity.
        + exists None. split; [|discriminate]. intros f Hf. rewrite H1 by auto. reflexivity. }
    destruct GO as (o & H & HO). destruct o as [[vs c]|].
    + destruct (HO vs c eq_refl) as (F & Hcc & Hl). destruct (HC AC fn vs) as (o2 & H2 & HQ); auto; [intros ->; destruct args; [auto|discriminate]|].
      exists (match o2 with Some v => Some (v, c) | None => None end). split.
      * intros f Hf. rewrite H by auto. cbn [bind]. rewrite H2 by auto. destruct o2; reflexivity.
      * intros v c' E. destruct o2 as [w|]; [|discriminate]. injection E as <- <-. auto.
    + exists None. split; [|discriminate]. intros f Hf. rewrite H by auto. reflexivity.
Qed.

Context (Hscalar : forall b, Q (VBool b)) (Hfloat : forall x, Q (VFloat x)) (W : string -> Prop) (Hparse : forall s e, W s -> parse L s = Some e -> exprAll Q P calls e).

Lemma eval_settles c : rooted c -> (forall name v, P name -> Lookup 22 h c name = Ok (Some v) -> (exists s, v = VStr s /\ W s) \/ (forall s, v <> VStr s) /\ Q v) ->
  (calls = true -> forall fn vs, vs <> [] -> Forall Q vs -> exists o, (forall ev, callWith L ev h fn vs = Ok o) /\ forall v, o = Some v -> Q v) ->
  forall k cnt s, W s -> 21 - cnt <= k -> settlesE (23 + k) cnt (fun f => evalExp L f h c cnt s).
Proof.
  intros R HL HC. induction k as [|k IH]; intros cnt s HW Hk.
  - exists None. split; [|discriminate]. intros [|f] Hf; [lia|]. cbn [evalExp]. unfold maxRecursion. destruct (Nat.ltb_spec 20 cnt); [reflexivity|lia].
  - destruct (Nat.ltb_spec 20 cnt) as [HT|HT].
    { exists None. split; [|discriminate]. intros [|f] Hf; [lia|]. cbn [evalExp]. unfold maxRecursion. destruct (Nat.ltb_spec 20 cnt); [reflexivity|lia]. }
    destruct (parse L s) as [e|] eqn:PE.
    2:{ exists None. split; [|discriminate]. intros [|f] Hf; [lia|]. cbn [evalExp]. rewrite PE. destruct (Nat.ltb maxRecursion cnt); reflexivity. }
    assert (T : settlesE (22 + S k) cnt (fun f => evalTree L (getWith L (Lookup f h c) (fun s' n => evalExp L f h c n s')) (callWith L (evalExp L f h c 0) h) e cnt)).
    { apply (tree_settles (22 + S k) (fun f => getWith L (Lookup f h c) (fun s' n => evalExp L f h c n s')) (fun f => callWith L (evalExp L f h c 0) h) cnt); [| |eapply Hparse; eauto|lia].
      - intros name cnt' HP Hc'. unfold getWith. destruct (lookup_settles h c name R) as [o HO].
        assert (LO : forall f, 22 + S k <= f -> Lookup f h c name = Ok o) by (intros; apply HO; lia).
        destruct o as [v|].
        + destruct (ToBool v) as [b|] eqn:TB.
          { exists (Some (VBool b, cnt')). split; [intros f Hf; rewrite LO by auto; cbn [bind]; rewrite TB; reflexivity|]. intros v' c' E. injection E as <- <-. auto. }
          destruct (dmFloat L v) as [x|] eqn:DF.
          { exists (Some (VFloat x, cnt')). split; [intros f Hf; rewrite LO by auto; cbn [bind]; rewrite TB, DF; reflexivity|]. intros v' c' E. injection E as <- <-. auto. }
          destruct (HL name v HP (HO 22 (le_n 22))) as [(s' & -> & HW')|[V HQ]].
          * destruct (IH (S cnt') s' HW' ltac:(lia)) as (o & H1 & H2). exists o. split; [intros f Hf; rewrite LO by auto; cbn [bind]; rewrite TB, DF; apply H1; lia|].
            intros v' c' E. destruct (H2 v' c' E). split; [auto|lia].
          * exists (Some (v, cnt')). split; [|intros v' c' E; injection E as <- <-; auto]. intros f Hf. rewrite LO by auto. cbn [bind]. rewrite TB, DF. destruct v; try reflexivity. destruct (V s0 eq_refl).
        + exists None. split; [|discriminate]. intros f Hf. rewrite LO by auto. reflexivity.
      - intros C fn vs NV F. destruct (HC C fn vs NV F) as (o & H1 & H2). exists o. split; [intros; apply H1|exact H2]. }
    destruct T as (o & H1 & H2). exists o. split; [|exact H2]. intros [|f] Hf; [lia|]. cbn [evalExp]. rewrite PE.
    replace (Nat.ltb maxRecursion cnt) with false by (unfold maxRecursion; symmetry; apply Nat.ltb_ge; auto). apply H1. lia.
Qed.
End Settle.

(** Expressions without function calls: evaluating one ends, whatever refers to whatever.  [W] holds the expressions that may be reached
    from the one evaluated, [P] the names in them; names outside may do what they like. *)
Theorem C31_expression L h c (W P : string -> Prop) s : rooted c -> W (dropDollars s) ->
  (forall s e, W s -> parse L s = Some e -> exprAll (fun _ => True) P false e) ->
  (forall name s, P name -> Lookup 22 h c name = Ok (Some (VStr s)) -> W s) ->
  exists o, forall fuel, 44 <= fuel -> ToFloat64 L fuel h c (VStr s) = Ok o.
Proof.
  intros R HW HP HL. unfold ToFloat64, toFloatWith.
  assert (HL2 : forall name v, P name -> Lookup 22 h c name = Ok (Some v) -> (exists s, v = VStr s /\ W s) \/ (forall s, v <> VStr s) /\ True).
  { intros name v Pn E. destruct v; try (right; split; [discriminate|exact I]). left. eauto. }
  destruct (eval_settles L h (fun _ => True) P false (fun _ _ _ _ => I) (fun _ _ _ _ _ => I) (fun _ => I) (fun _ => I) W HP c R HL2 (fun E => ltac:(discriminate E)) 21 0 (dropDollars s) HW (le_n 21)) as (o & H1 & _).
  destruct o as [[w n]|]; eexists; intros f Hf; rewrite H1 by (cbn; lia); reflexivity.
Qed.
Print Assumptions C31_expression.

(** Also with function calls, if no text, list or map reaches a function: no text constants, operators and functions with scalar results, and
    no parameters (among the names used) that are lists or maps; every call has an argument. *)
Definition scalar (v : val) : Prop := match v with VStr _ | VSlice _ | VMap _ | VStrMap _ => False | _ => True end.
Lemma scalar_float L ev v : scalar v -> toFloatWith L ev v = Ok (dmFloat L v). Proof. destruct v; cbn; tauto. Qed.
Lemma scalar_floats L ev vs : Forall scalar vs -> exists o, floatsWith L ev vs = Ok o /\ forall ev2, floatsWith L ev2 vs = Ok o.
Proof.
  induction vs as [|v r IH]; intros F; [eexists; split; reflexivity|]. inversion F; subst. destruct (IH H2) as (o & E & E2).
  exists (match dmFloat L v with None => None | Some x => match o with None => None | Some l => Some (x :: l) end end).
  split; [|intros ev2]; cbn [floatsWith]; rewrite scalar_float by auto; cbn [bind]; destruct (dmFloat L v); auto; [rewrite E|rewrite E2]; destruct o; reflexivity.
Qed.
Lemma scalar_flatten vs : Forall scalar vs -> flattenArgs vs = vs.
Proof. induction vs as [|v r IH]; intros F; [reflexivity|]. inversion F; subst. unfold flattenArgs in *. cbn [flat_map]. rewrite IH by auto. destruct v; try reflexivity. destruct H1. Qed.
Lemma scalar_call L h fn vs : (forall f l, scalar (numeric L f l)) -> vs <> [] -> Forall scalar vs ->
  exists o, (forall ev, callWith L ev h fn vs = Ok o) /\ forall v, o = Some v -> scalar v.
Proof.
  intros HN NV F. destruct (scalar_floats L (fun _ => Ok None) vs F) as (o & _ & FL). unfold callWith. rewrite (scalar_flatten vs F).
  assert (PT : forall ev v, scalar v -> toPointWith L ev h v = Ok None). { intros ev v S. unfold toPointWith. destruct v; try reflexivity; destruct S. }
  destruct (String.eqb fn "sqrt").
  - destruct vs as [|a r]; [congruence|]. inversion F; subst. exists (match dmFloat L a with None => None | Some x => Some (numeric L fn [x]) end). split.
    + intros ev. rewrite scalar_float by auto. cbn [bind]. destruct (dmFloat L a); reflexivity.
    + intros v E. destruct (dmFloat L a); [|discriminate]. injection E as <-. apply HN.
  - destruct (String.eqb fn "distance" || String.eqb fn "angle")%bool.
    + exists (match vs with [_; _] => None | _ => match o with Some [x1; y1; x2; y2] => Some (numeric L fn [x1; y1; x2; y2]) | _ => None end end). split.
      * intros ev. destruct vs as [|a [|b [|c r]]]; try (rewrite FL; cbn [bind]; destruct o as [[|? [|? [|? [|? [|? ?]]]]]|]; reflexivity).
        inversion F; subst. rewrite PT by auto. reflexivity.
      * intros v E. destruct vs as [|a [|b [|c r]]]; try discriminate; destruct o as [[|? [|? [|? [|? [|? ?]]]]]|]; try discriminate; injection E as <-; apply HN.
    + destruct (String.eqb fn "mmToInch" || String.eqb fn "inchToMM")%bool.
      * exists (match o with Some [x] => Some (numeric L fn [x]) | _ => None end). split.
        -- intros ev. rewrite FL. cbn [bind]. destruct o as [[|? [|? ?]]|]; reflexivity.
        -- intros v E. destruct o as [[|? [|? ?]]|]; try discriminate. injection E as <-. apply HN.
      * exists None. split; [reflexivity|discriminate].
Qed.
Theorem C31_functions L h c (W P : string -> Prop) s : rooted c -> W (dropDollars s) ->
  (forall s e, W s -> parse L s = Some e -> exprAll scalar P true e) ->
  (forall op v w, unop L op v = Some w -> scalar w) -> (forall op v v2 w, binop L op v v2 = Some w -> scalar w) -> (forall f l, scalar (numeric L f l)) ->
  (forall name v, P name -> Lookup 22 h c name = Ok (Some v) -> (exists s, v = VStr s /\ W s) \/ scalar v) ->
  exists o, forall fuel, 44 <= fuel -> ToFloat64 L fuel h c (VStr s) = Ok o.
Proof.
  intros R HW HP HU HB HN HL. unfold ToFloat64, toFloatWith.
  assert (HL2 : forall name v, P name -> Lookup 22 h c name = Ok (Some v) -> (exists s, v = VStr s /\ W s) \/ (forall s, v <> VStr s) /\ scalar v).
  { intros name v Pn E. destruct (HL name v Pn E) as [H|H]; [auto|]. right. split; [|exact H]. intros s0 ->. destruct H. }
  destruct (eval_settles L h scalar P true HU HB (fun _ => I) (fun _ => I) W HP c R HL2 (fun _ fn vs => scalar_call L h fn vs HN) 21 0 (dropDollars s) HW (le_n 21)) as (o & H1 & _).
  destruct o as [[w n]|]; eexists; intros f Hf; rewrite H1 by (cbn; lia); reflexivity.
Qed.
Print Assumptions C31_functions.

(** Dollar signs in an expression do not count, wherever and however many they are. *)
Lemma dropDollars_chars s : list_ascii_of_string (dropDollars s) = filter (fun c => negb (Ascii.eqb c "$"%char)) (list_ascii_of_string s).
Proof. induction s as [|c s IH]; [reflexivity|]. cbn. destruct (Ascii.eqb c "$"); cbn; [exact IH|f_equal; exact IH]. Qed.
Lemma chars_inj s t : list_ascii_of_string s = list_ascii_of_string t -> s = t.
Proof. intros E. rewrite <- (string_of_list_ascii_of_string s), E. apply string_of_list_ascii_of_string. Qed.
Theorem C31_dollars L fuel h c s t : ~ In "$"%char (list_ascii_of_string t) ->
  filter (fun c => negb (Ascii.eqb c "$"%char)) (list_ascii_of_string s) = list_ascii_of_string t -> ToFloat64 L fuel h c (VStr s) = ToFloat64 L fuel h c (VStr t).
Proof.
  intros NT E. assert (ET : dropDollars t = t).
  { apply chars_inj. rewrite dropDollars_chars. clear -NT. induction (list_ascii_of_string t) as [|x l IH]; [reflexivity|]. cbn in *.
    destruct (Ascii.eqb_spec x "$"); [exfalso; apply NT; auto|]. cbn. f_equal. apply IH. tauto. }
  assert (ES : dropDollars s = t) by (apply chars_inj; rewrite dropDollars_chars; exact E).
  unfold ToFloat64. cbn [toFloatWith]. rewrite ES, ET. reflexivity.
Qed.
Print Assumptions C31_dollars.

(** *** examples *)
(** two parameters referring to each other inside, a size given by a chain of expressions outside *)
Definition rings : heap := mkHeap 3 (fun a => match a with
  | 0 => [("params", VMap 1)]
  | 1 => [("width", VInt 3); ("height", VStr "width*2")]
  | 2 => [("a", VStr "b"); ("b", VStr "a"); ("size", VStr "height")]
  | _ => [] end).
Definition outer : chain := Root (mkElem None 0 None None).
Definition inner : chain := Child (mkElem None 2 None None) outer.
Definition product (v w : val) : option val :=
  match v, w with VFloat x, VFloat y => Some (VFloat (SFmul 53 1024 x y)) | _, _ => None end.
Definition lang : Lang := mkLang
  (fun s => if String.eqb s "width*2" then Some (EBin "*" (EVar "width") (EConst (VFloat (floatOfZ 2))))
            else if String.eqb s "size" then Some (EVar "size")
            else if String.eqb s "sqrt(width)" then Some (ECall "sqrt" [EVar "width"]) else None)
  (fun _ _ => None) (fun op v w => if String.eqb op "*" then product v w else None) (fun _ => None) (fun _ => "<nil>")
  (fun f l => match l with [x] => VFloat (SFsqrt 53 1024 x) | _ => VNil end).
Lemma rooted_inner : rooted inner. Proof. exact I. Qed.
Example C31_example : Lookup 22 rings inner "a" = Ok None /\ Lookup 22 rings inner "size" = Ok (Some (VStr "width*2")) /\
  attrLookup 36 rings (mkAttr inner 2) "a" 0 = Ok (Some (VStr "b")) /\ attrString lang 36 rings (mkAttr inner 2) "size" = Ok ("width*2", true) /\
  ToFloat64 lang 44 rings inner (VStr "size") = Ok (Some (floatOfZ 6)).
Proof. repeat split; reflexivity. Qed.
Example C31_dollars_example : ToFloat64 lang 44 rings inner (VStr "$$si$ze") = ToFloat64 lang 44 rings inner (VStr "size") /\ ToFloat64 lang 44 rings inner (VStr "$$si$ze") = Ok (Some (floatOfZ 6)).
Proof. split; [|reflexivity]. apply C31_dollars; [cbn; intuition discriminate|reflexivity]. Qed.
(** the hypotheses of both theorems on expressions, for the size and for the root of the width *)
Definition exprs (s : string) : Prop := s = "size" \/ s = "width*2".
Definition names (s : string) : Prop := s = "size" \/ s = "width".
Example C31_expression_example : rooted inner /\ exprs (dropDollars "$size") /\ (forall s e, exprs s -> parse lang s = Some e -> exprAll (fun _ => True) names false e) /\
  (forall name s, names name -> Lookup 22 rings inner name = Ok (Some (VStr s)) -> exprs s).
Proof.
  split; [exact I|]. split; [left; reflexivity|]. split.
  - intros s e [-> | ->] E; injection E as <-; cbn; unfold names; auto.
  - intros name s [-> | ->] E; [injection E as <-; right; reflexivity|discriminate].
Qed.
Example C31_functions_example : ToFloat64 lang 44 rings inner (VStr "sqrt(width)") = Ok (Some (SFsqrt 53 1024 (floatOfZ 3))) /\
  (forall s e, s = "sqrt(width)" -> parse lang s = Some e -> exprAll scalar (fun n => n = "width") true e) /\
  (forall op v w, unop lang op v = Some w -> scalar w) /\ (forall op v v2 w, binop lang op v v2 = Some w -> scalar w) /\ (forall f l, scalar (numeric lang f l)) /\
  (forall name v, name = "width" -> Lookup 22 rings inner name = Ok (Some v) -> (exists s, v = VStr s /\ s = "sqrt(width)") \/ scalar v).
Proof.
  split; [reflexivity|]. split; [|split; [|split; [|split]]].
  - intros s e -> E. injection E as <-. cbn. repeat split. discriminate.
  - discriminate.
  - intros op v v2 w. cbn. destruct (String.eqb op "*"); [|discriminate]. unfold product. destruct v, v2; try discriminate. intros E. injection E as <-. exact I.
  - intros f [|x [|y l]]; exact I.
  - intros name v -> E. injection E as <-. right. exact I.
Qed.

(** *** violations *)
(** Two parameters that name each other: asking for either as a point never ends. *)
Definition mirror : heap := mkHeap 1 (fun a => match a with 0 => [("from", VStr "to"); ("to", VStr "from")] | _ => [] end).
Definition mirrorAttr : attr := mkAttr (Root (mkElem None 0 None None)) 0.
Lemma mirror_lookup L p q : (p, q) = ("from", "to") \/ (p, q) = ("to", "from") -> forall f,
  (attrLookup f mirror mirrorAttr p 0 = OutOfFuel \/ attrLookup f mirror mirrorAttr p 0 = Ok (Some (VStr q))) /\
  (attrString L f mirror mirrorAttr p = OutOfFuel \/ attrString L f mirror mirrorAttr p = Ok (q, true)).
Proof.
  intros PQ f. destruct (le_lt_dec 36 f) as [H|H].
  - destruct (C31_attribute mirror mirrorAttr p I) as (o & Ho). destruct (C31_string L mirror mirrorAttr p I) as (o2 & Ho2).
    rewrite Ho, Ho2 by auto. split; right; [rewrite <- (Ho 36 (le_n 36))|rewrite <- (Ho2 36 (le_n 36))]; destruct PQ as [E|E]; injection E as -> ->; reflexivity.
  - do 36 (destruct f as [|f]; [destruct PQ as [E|E]; injection E as -> ->; split; ((left; reflexivity) || (right; reflexivity))|]). lia.
Qed.
Theorem C31_point_refuted L cursor : forall fuel, attrPoint L fuel mirror cursor mirrorAttr "from" = OutOfFuel /\ attrPoint L fuel mirror cursor mirrorAttr "to" = OutOfFuel.
Proof.
  assert (G : forall fuel p q, (p, q) = ("from", "to") \/ (p, q) = ("to", "from") -> attrPoint L fuel mirror cursor mirrorAttr p = OutOfFuel).
  { induction fuel as [|f IH]; intros p q PQ; [reflexivity|]. cbn [attrPoint].
    replace (dollar p) with false by (destruct PQ as [E|E]; injection E as -> ->; reflexivity).
    destruct (mirror_lookup L p q PQ f) as [[E|E] [E2|E2]]; rewrite E; try reflexivity; cbn [bind toPointWith entries]; rewrite E2; try reflexivity. cbn [bind fst].
    replace (splitCommas q) with [q] by (destruct PQ as [E0|E0]; injection E0 as -> ->; reflexivity).
    replace (String.eqb q p) with false by (destruct PQ as [E0|E0]; injection E0 as -> ->; reflexivity).
    apply (IH q p). destruct PQ as [E0|E0]; injection E0 as -> ->; auto. }
  intros fuel. split; eapply G; eauto.
Qed.
Print Assumptions C31_point_refuted.

(** A parameter whose expression hands its own name, as a text, to a function: evaluating it never ends. *)
Definition spiral : heap := mkHeap 1 (fun a => match a with 0 => [("a", VStr "sqrt('a')")] | _ => [] end).
Definition spiralRoot : chain := Root (mkElem None 0 None None).
Theorem C31_function_refuted L : parse L "a" = Some (EVar "a") -> parse L "sqrt('a')" = Some (ECall "sqrt" [EConst (VStr "a")]) -> parseFloat L "sqrt('a')" = None ->
  forall fuel, ToFloat64 L fuel spiral spiralRoot (VStr "a") = OutOfFuel.
Proof.
  intros P1 P2 PF. assert (G : forall fuel, evalExp L fuel spiral spiralRoot 0 "a" = OutOfFuel).
  { intros fuel. induction fuel as [fuel IH] using lt_wf_ind. destruct fuel as [|f]; [reflexivity|].
    cbn [evalExp]. change (Nat.ltb maxRecursion 0) with false. rewrite P1. cbn [evalTree]. unfold getWith.
    assert (E : Lookup f spiral spiralRoot "a" = OutOfFuel \/ Lookup f spiral spiralRoot "a" = Ok (Some (VStr "sqrt('a')"))) by (destruct f as [|[|f]]; auto).
    destruct E as [E|E]; rewrite E; [reflexivity|]. cbn [bind]. change (ToBool (VStr "sqrt('a')")) with (@None bool). cbn [dmFloat]. rewrite PF.
    destruct f as [|f]; [reflexivity|]. cbn [evalExp]. change (Nat.ltb maxRecursion 1) with false. rewrite P2. cbn [evalTree bind].
    change (callWith L (evalExp L f spiral spiralRoot 0) spiral "sqrt" [VStr "a"]) with
      (bind (toFloatWith L (evalExp L f spiral spiralRoot 0) (VStr "a")) (fun o => match o with None => Ok None | Some x => Ok (Some (numeric L "sqrt" [x])) end)).
    cbn [toFloatWith]. change (dropDollars "a") with "a". rewrite IH by lia. reflexivity. }
  intros fuel. unfold ToFloat64. cbn [toFloatWith]. change (dropDollars "a") with "a". rewrite G. reflexivity.
Qed.
Print Assumptions C31_function_refuted.
(** such a language *)
Example C31_function_example : let L := mkLang (fun s => if String.eqb s "a" then Some (EVar "a") else if String.eqb s "sqrt('a')" then Some (ECall "sqrt" [EConst (VStr "a")]) else None)
    (fun _ _ => None) (fun _ _ _ => None) (fun _ => None) (fun _ => "") (fun _ _ => VNil) in
  parse L "a" = Some (EVar "a") /\ parse L "sqrt('a')" = Some (ECall "sqrt" [EConst (VStr "a")]) /\ parseFloat L "sqrt('a')" = None.
Proof. repeat split. Qed.

(** A component without parent, and a call without arguments, are panics. *)
Theorem C31_panic_refuted L : parse L "sqrt()" = Some (ECall "sqrt" []) -> forall fuel h, 2 <= fuel ->
  ToFloat64 L fuel h spiralRoot (VStr "sqrt()") = Panic /\ Lookup fuel spiral (Orphan (mkElem None 0 None None)) "b" = Panic.
Proof. intros P [|[|fuel]] h H; try lia. split; [|reflexivity]. unfold ToFloat64. cbn [toFloatWith]. change (dropDollars "sqrt()") with "sqrt()". cbn [evalExp]. rewrite P. reflexivity. Qed.
Print Assumptions C31_panic_refuted.
