(** C94: the value of an expression. *)
From Coq Require Import String Ascii List ZArith Bool Arith Lia.
From Coq.Floats Require Import SpecFloat.
From Verif Require Import Num FloatNum PathModel DynModel ParamModel ExprFuncs Prop_C31 Prop_C32 Prop_C87.
Import ListNotations.
Local Open Scope string_scope.
Local Open Scope list_scope.

(** *** what is meant *)
Section Spec.
Context (L : Lang) (h : heap) (c : chain).

(** what a name stands for around the element *)
Definition found (name : string) (v : val) : Prop := exists f, Lookup f h c name = Ok (Some v).
(** values that are flags, and values that are numbers *)
Inductive isFlag : val -> bool -> Prop :=
| flag_bool b : isFlag (VBool b) b
| flag_word b s : flagWord b s -> isFlag (VStr s) b.
Inductive reads : val -> spec_float -> Prop :=
| reads_float x : reads (VFloat x) x
| reads_int z : reads (VInt z) (floatOfZ z)
| reads_text s x : parseFloat L s = Some x -> reads (VStr s) x.
Definition noFlag (v : val) : Prop := forall b, ~ isFlag v b.
Definition noNumber (v : val) : Prop := forall x, ~ reads v x.
Definition noText (v : val) : Prop := forall s, v <> VStr s.
(** the arguments of a function, with lists opened *)
Inductive opened : list val -> list val -> Prop :=
| op_nil : opened [] []
| op_list l r r' : opened r r' -> opened (VSlice l :: r) (l ++ r')
| op_one a r r' : (forall l, a <> VSlice l) -> opened r r' -> opened (a :: r) (a :: r').
(** an entry of a point; a missing one is the empty text *)
Inductive entry (l : list (string * val)) (k : string) : val -> Prop :=
| entry_there v : mapGet h l k = Some v -> entry l k v
| entry_missing : mapGet h l k = None -> entry l k (VStr "").

(** [gives e v k]: the expression [e] has the value [v], and [k] names were replaced by the expressions they stand for *)
Inductive gives : expr -> val -> nat -> Prop :=
| gives_const v : gives (EConst v) v 0
| gives_var name v k : named name v k -> gives (EVar name) v k
| gives_un op e v w k : gives e v k -> unop L op v = Some w -> gives (EUn op e) w k
| gives_bin op e1 e2 v1 v2 w k1 k2 : gives e1 v1 k1 -> gives e2 v2 k2 -> binop L op v1 v2 = Some w -> gives (EBin op e1 e2) w (k1 + k2)
| gives_call f args vs w k : givesAll args vs k -> applies f vs w -> gives (ECall f args) w k
with givesAll : list expr -> list val -> nat -> Prop :=
| all_nil : givesAll [] [] 0
| all_cons e r v vs k1 k2 : gives e v k1 -> givesAll r vs k2 -> givesAll (e :: r) (v :: vs) (k1 + k2)
(** a name is a flag, a number, an expression of its own, or whatever it stands for *)
with named : string -> val -> nat -> Prop :=
| named_flag name v b : found name v -> isFlag v b -> named name (VBool b) 0
| named_number name v x : found name v -> noFlag v -> reads v x -> named name (VFloat x) 0
| named_expr name s e w k : found name (VStr s) -> noFlag (VStr s) -> noNumber (VStr s) -> parse L s = Some e -> gives e w k -> named name w (S k)
| named_thing name v : found name v -> noFlag v -> noNumber v -> noText v -> named name v 0
(** the functions *)
with applies : string -> list val -> val -> Prop :=
| app_sqrt a r x : isNumber a x -> applies "sqrt" (a :: r) (numeric L "sqrt" [x])
| app_points f args a b x1 y1 x2 y2 : f = "distance" \/ f = "angle" -> opened args [a; b] -> isPoint a x1 y1 -> isPoint b x2 y2 -> applies f args (numeric L f [x1; y1; x2; y2])
| app_coords f args l x1 y1 x2 y2 : f = "distance" \/ f = "angle" -> opened args l -> areNumbers l [x1; y1; x2; y2] -> applies f args (numeric L f [x1; y1; x2; y2])
| app_units f a x : f = "mmToInch" \/ f = "inchToMM" -> isNumber a x -> applies f [a] (numeric L f [x])
with isPoint : val -> spec_float -> spec_float -> Prop :=
| is_point v l vx vy x y : entries h v = Some l -> entry l "x" vx -> entry l "y" vy -> isNumber vx x -> isNumber vy y -> isPoint v x y
with areNumbers : list val -> list spec_float -> Prop :=
| are_nil : areNumbers [] []
| are_cons a r x l : isNumber a x -> areNumbers r l -> areNumbers (a :: r) (x :: l)
(** a value is a number if it is one or is written as an expression for one, with at most 20 names replaced; a $ in it means nothing *)
with isNumber : val -> spec_float -> Prop :=
| is_plain v x : noText v -> reads v x -> isNumber v x
| is_text s e w x k : parse L (dropDollars s) = Some e -> gives e w k -> k <= 20 -> reads w x -> isNumber (VStr s) x.

Scheme gives_i := Induction for gives Sort Prop with givesAll_i := Induction for givesAll Sort Prop with named_i := Induction for named Sort Prop
  with applies_i := Induction for applies Sort Prop with isPoint_i := Induction for isPoint Sort Prop with areNumbers_i := Induction for areNumbers Sort Prop
  with isNumber_i := Induction for isNumber Sort Prop.
Combined Scheme all_i from gives_i, givesAll_i, named_i, applies_i, isPoint_i, areNumbers_i, isNumber_i.

(** *** reading values *)
Lemma ToBool_iff v b : ToBool v = Some b <-> isFlag v b.
Proof.
  split.
  - destruct v; cbn [ToBool]; try discriminate; intros H.
    + injection H as <-. constructor.
    + apply flag_word. apply ToBool_word. exact H.
  - intros [b'|b' s H]; [reflexivity|]. apply ToBool_word. exact H.
Qed.
Lemma ToBool_none v : ToBool v = None <-> noFlag v.
Proof.
  split.
  - intros H b Hb. apply ToBool_iff in Hb. congruence.
  - intros H. destruct (ToBool v) as [b|] eqn:E; auto. destruct (H b). apply ToBool_iff. auto.
Qed.
Lemma dmFloat_iff v x : dmFloat L v = Some x <-> reads v x.
Proof.
  split.
  - destruct v; cbn; try discriminate; intros H; try (injection H as <-); constructor. exact H.
  - intros [y|z|s y H]; auto.
Qed.
Lemma dmFloat_none v : dmFloat L v = None <-> noNumber v.
Proof.
  split.
  - intros H x Hx. apply dmFloat_iff in Hx. congruence.
  - intros H. destruct (dmFloat L v) as [x|] eqn:E; auto. destruct (H x). apply dmFloat_iff. auto.
Qed.
Lemma opened_iff args l : opened args l <-> flattenArgs args = l.
Proof.
  split.
  - intros H. induction H as [|l r r' H IH|a r r' Ha H IH]; cbn; [reflexivity|unfold flattenArgs in IH; rewrite IH; reflexivity|].
    unfold flattenArgs in IH. rewrite IH. destruct a; try reflexivity. destruct (Ha l). reflexivity.
  - intros <-. induction args as [|a r IH]; cbn; [constructor|]. destruct a; try (apply op_one; [discriminate|exact IH]). apply op_list. exact IH.
Qed.
Lemma entry_iff l k v : entry l k v <-> match mapGet h l k with Some w => w | None => VStr "" end = v.
Proof.
  split; [intros [w E|E]; rewrite E; reflexivity|]. intros <-. destruct (mapGet h l k) eqn:E; [apply entry_there|apply entry_missing]; auto.
Qed.

(** *** looking up with more nested calls *)
Lemma local_more e : forall f p r o, localLookup f h e p r = Ok o -> localLookup (S f) h e p r = Ok o.
Proof.
  induction f as [|f IH]; intros p r o H; [discriminate|]. cbn [localLookup] in H. remember (S f) as g. cbn [localLookup].
  destruct (Nat.ltb maxRecursion r); [exact H|]. destruct (localGet h e p) as [v|]; [|exact H]. destruct v; try exact H. subst g. apply IH. exact H.
Qed.
Lemma lookup_more f : forall c p o, Lookup f h c p = Ok o -> Lookup (S f) h c p = Ok o.
Proof.
  induction c0 as [e|e par IH|e]; intros p o H; cbn [Lookup self] in H |- *.
  - destruct (localLookup f h e p 0) as [o0| | |] eqn:E; try discriminate. rewrite (local_more e f p 0 o0 E). exact H.
  - destruct (localLookup f h e p 0) as [o0| | |] eqn:E; try discriminate. rewrite (local_more e f p 0 o0 E). cbn [bind] in *.
    destruct o0 as [v|]; [|apply IH; exact H]. destruct v; try exact H.
    destruct (Lookup f h par s) as [o1| | |] eqn:E1; try discriminate. rewrite (IH s o1 E1). exact H.
  - destruct (localLookup f h e p 0) as [o0| | |] eqn:E; try discriminate. rewrite (local_more e f p 0 o0 E). exact H.
Qed.
Lemma lookup_le f g p o : f <= g -> Lookup f h c p = Ok o -> Lookup g h c p = Ok o.
Proof. intros LE. induction LE as [|g LE IH]; auto. intros H. apply lookup_more. auto. Qed.

(** *** evaluating what has a value *)
Notation get f := (getWith L (Lookup f h c) (fun s' n => evalExp L f h c n s')).
Notation call f := (callWith L (evalExp L f h c 0) h).
Definition args (gt : string -> nat -> evaluated) (cl : string -> list val -> res (option val)) := fix go (l : list expr) (c : nat) : res (option (list val * nat)) :=
               match l with
               | [] => Ok (Some ([], c))
               | e1 :: r => bind (evalTree L gt cl e1 c) (fun o => match o with
                              | None => Ok None
                              | Some (v, c1) => bind (go r c1) (fun o2 => match o2 with None => Ok None | Some (vs, c2) => Ok (Some (v :: vs, c2)) end)
                              end)
               end.
Lemma evalTree_call gt cl f l cnt : evalTree L gt cl (ECall f l) cnt = bind (args gt cl l cnt) (fun o => match o with
        | None => Ok None
        | Some (vs, c) => bind (cl f vs) (fun o2 => match o2 with None => Ok None | Some v => Ok (Some (v, c)) end)
        end).
Proof. reflexivity. Qed.
Lemma args_cons gt cl e r cnt : args gt cl (e :: r) cnt = bind (evalTree L gt cl e cnt) (fun o => match o with
                              | None => Ok None
                              | Some (v, c1) => bind (args gt cl r c1) (fun o2 => match o2 with None => Ok None | Some (vs, c2) => Ok (Some (v :: vs, c2)) end)
                              end).
Proof. reflexivity. Qed.

Definition P_gives (e : expr) (v : val) (k : nat) := exists n, forall f cnt, n <= f -> cnt + k <= 20 -> evalTree L (get f) (call f) e cnt = Ok (Some (v, cnt + k)).
Definition P_all (l : list expr) (vs : list val) (k : nat) := exists n, forall f cnt, n <= f -> cnt + k <= 20 -> args (get f) (call f) l cnt = Ok (Some (vs, cnt + k)).
Definition P_named (name : string) (v : val) (k : nat) := exists n, forall f cnt, n <= f -> cnt + k <= 20 -> get f name cnt = Ok (Some (v, cnt + k)).
Definition P_applies (fn : string) (vs : list val) (w : val) := exists n, forall f, n <= f -> call f fn vs = Ok (Some w).
Definition P_point (v : val) (x y : spec_float) := exists n, forall f, n <= f -> toPointWith L (evalExp L f h c 0) h v = Ok (Some (x, y)).
Definition P_numbers (l : list val) (xs : list spec_float) := exists n, forall f, n <= f -> floatsWith L (evalExp L f h c 0) l = Ok (Some xs).
Definition P_number (v : val) (x : spec_float) := exists n, forall f, n <= f -> toFloatWith L (evalExp L f h c 0) v = Ok (Some x).

Lemma toFloat_plain ev v : noText v -> toFloatWith L ev v = Ok (dmFloat L v).
Proof. intros H. destruct v; try reflexivity. destruct (H s). reflexivity. Qed.
Lemma evaluates :
  (forall e v k, gives e v k -> P_gives e v k) /\ (forall l vs k, givesAll l vs k -> P_all l vs k) /\ (forall name v k, named name v k -> P_named name v k) /\
  (forall f vs w, applies f vs w -> P_applies f vs w) /\ (forall v x y, isPoint v x y -> P_point v x y) /\ (forall l xs, areNumbers l xs -> P_numbers l xs) /\
  (forall v x, isNumber v x -> P_number v x).
Proof.
  apply all_i.
  - intros v. exists 0. intros f cnt _ _. cbn. rewrite Nat.add_0_r. reflexivity.
  - intros name v k _ [n H]. exists n. exact H.
  - intros op e v w k _ [n H] E. exists n. intros f cnt Hf Hc. cbn [evalTree]. rewrite H by auto. cbn [bind]. rewrite E. reflexivity.
  - intros op e1 e2 v1 v2 w k1 k2 _ [n1 H1] _ [n2 H2] E. exists (n1 + n2). intros f cnt Hf Hc. cbn [evalTree]. rewrite H1 by lia. cbn [bind]. rewrite H2 by lia. cbn [bind]. rewrite E.
    rewrite Nat.add_assoc. reflexivity.
  - intros fn l vs w k _ [n1 H1] _ [n2 H2]. exists (n1 + n2). intros f cnt Hf Hc. rewrite evalTree_call, H1 by lia. cbn [bind]. rewrite H2 by lia. reflexivity.
  - exists 0. intros f cnt _ _. cbn. rewrite Nat.add_0_r. reflexivity.
  - intros e r v vs k1 k2 _ [n1 H1] _ [n2 H2]. exists (n1 + n2). intros f cnt Hf Hc. rewrite args_cons, H1 by lia. cbn [bind]. rewrite H2 by lia. cbn [bind]. rewrite Nat.add_assoc. reflexivity.
  - intros name v b [n H] Hb. exists n. intros f cnt Hf Hc. unfold getWith. rewrite (lookup_le n f _ _ Hf H). cbn [bind]. apply ToBool_iff in Hb. rewrite Hb, Nat.add_0_r. reflexivity.
  - intros name v x [n H] Hb Hx. exists n. intros f cnt Hf Hc. unfold getWith. rewrite (lookup_le n f _ _ Hf H). cbn [bind]. apply ToBool_none in Hb. apply dmFloat_iff in Hx.
    rewrite Hb, Hx, Nat.add_0_r. reflexivity.
  - intros name s e w k [n H] Hb Hx E _ [n2 H2]. exists (S (n + n2)). intros f cnt Hf Hc. unfold getWith. rewrite (lookup_le n f _ _ ltac:(lia) H). cbn [bind].
    apply ToBool_none in Hb. apply dmFloat_none in Hx. rewrite Hb, Hx. destruct f as [|f]; [lia|]. cbn [evalExp]. unfold maxRecursion. destruct (Nat.ltb_spec 20 (S cnt)); [lia|].
    rewrite E, H2 by lia. do 3 f_equal. lia.
  - intros name v [n H] Hb Hx Ht. exists n. intros f cnt Hf Hc. unfold getWith. rewrite (lookup_le n f _ _ Hf H). cbn [bind]. apply ToBool_none in Hb. apply dmFloat_none in Hx.
    rewrite Hb, Hx, Nat.add_0_r. destruct v; try reflexivity. destruct (Ht s). reflexivity.
  - intros a r x _ [n H]. exists n. intros f Hf. unfold callWith. cbn [String.eqb Ascii.eqb Bool.eqb]. rewrite H by auto. reflexivity.
  - intros fn l a b x1 y1 x2 y2 Hfn HO _ [n1 H1] _ [n2 H2]. exists (n1 + n2). intros f Hf. apply opened_iff in HO. unfold callWith.
    assert (B : String.eqb fn "sqrt" = false /\ (String.eqb fn "distance" || String.eqb fn "angle")%bool = true) by (destruct Hfn; subst fn; split; reflexivity).
    destruct B as [B1 B2]. rewrite B1, B2, HO, H1 by lia. cbn [bind]. rewrite H2 by lia. reflexivity.
  - intros fn l l' x1 y1 x2 y2 Hfn HO HN [n H]. exists n. intros f Hf. apply opened_iff in HO. unfold callWith.
    assert (B : String.eqb fn "sqrt" = false /\ (String.eqb fn "distance" || String.eqb fn "angle")%bool = true) by (destruct Hfn; subst fn; split; reflexivity).
    destruct B as [B1 B2]. rewrite B1, B2, HO.
    assert (LN : forall l xs, areNumbers l xs -> List.length l = List.length xs) by (clear; intros l xs H; induction H; cbn; auto).
    apply LN in HN. destruct l' as [|a1 [|a2 [|a3 [|a4 [|a5 t]]]]]; cbn in HN; try discriminate. rewrite H by lia. reflexivity.
  - intros fn a x Hfn _ [n H]. exists n. intros f Hf. unfold callWith.
    assert (B : String.eqb fn "sqrt" = false /\ (String.eqb fn "distance" || String.eqb fn "angle")%bool = false /\ (String.eqb fn "mmToInch" || String.eqb fn "inchToMM")%bool = true)
      by (destruct Hfn; subst fn; repeat split; reflexivity).
    destruct B as (B1 & B2 & B3). rewrite B1, B2, B3. cbn [floatsWith]. rewrite H by lia. reflexivity.
  - intros v l vx vy x y E Ex Ey _ [n1 H1] _ [n2 H2]. exists (n1 + n2). intros f Hf. unfold toPointWith. rewrite E. apply entry_iff in Ex, Ey. rewrite Ex, Ey, H1 by lia. cbn [bind].
    rewrite H2 by lia. reflexivity.
  - exists 0. reflexivity.
  - intros a r x l _ [n1 H1] _ [n2 H2]. exists (n1 + n2). intros f Hf. cbn [floatsWith]. rewrite H1 by lia. cbn [bind]. rewrite H2 by lia. reflexivity.
  - intros v x Ht Hx. exists 0. intros f _. rewrite toFloat_plain by auto. apply dmFloat_iff in Hx. rewrite Hx. reflexivity.
  - intros s e w x k E _ [n H] Hk Hx. exists (S n). intros f Hf. destruct f as [|f]; [lia|]. cbn [toFloatWith evalExp]. cbn [Nat.ltb Nat.leb maxRecursion]. rewrite E, H by lia. cbn [bind].
    apply dmFloat_iff in Hx. rewrite Hx. reflexivity.
Qed.

(** *** what is evaluated has the value *)
Section Only.
Context (f : nat) (IH : forall cnt s w c', evalExp L f h c cnt s = Ok (Some (w, c')) -> exists e k, parse L s = Some e /\ gives e w k /\ c' = cnt + k /\ c' <= 20).

Lemma only_number v x : toFloatWith L (evalExp L f h c 0) v = Ok (Some x) -> isNumber v x.
Proof.
  intros H. destruct v; try (apply is_plain; [discriminate|]; apply dmFloat_iff; cbn in H |- *; congruence).
  cbn [toFloatWith] in H. destruct (evalExp L f h c 0 (dropDollars s)) as [[[w c']|]| | |] eqn:E; cbn [bind] in H; try discriminate.
  apply IH in E. destruct E as (e & k & E & G & -> & K). eapply is_text; eauto. apply dmFloat_iff. congruence.
Qed.
Lemma only_numbers : forall l xs, floatsWith L (evalExp L f h c 0) l = Ok (Some xs) -> areNumbers l xs.
Proof.
  induction l as [|a l IHl]; intros xs H; cbn [floatsWith] in H; [injection H as <-; constructor|].
  destruct (toFloatWith L (evalExp L f h c 0) a) as [[x|]| | |] eqn:E; cbn [bind] in H; try discriminate.
  destruct (floatsWith L (evalExp L f h c 0) l) as [[ys|]| | |] eqn:E2; cbn [bind] in H; try discriminate. injection H as <-. constructor; auto. apply only_number. exact E.
Qed.
Lemma only_point v x y : toPointWith L (evalExp L f h c 0) h v = Ok (Some (x, y)) -> isPoint v x y.
Proof.
  unfold toPointWith. intros H. destruct (entries h v) as [l|] eqn:E; [|discriminate].
  destruct (toFloatWith L (evalExp L f h c 0) (match mapGet h l "x" with Some w => w | None => VStr "" end)) as [[x'|]| | |] eqn:E1; cbn [bind] in H; try discriminate.
  destruct (toFloatWith L (evalExp L f h c 0) (match mapGet h l "y" with Some w => w | None => VStr "" end)) as [[y'|]| | |] eqn:E2; cbn [bind] in H; try discriminate.
  injection H as <- <-. eapply is_point; [exact E|apply entry_iff; reflexivity|apply entry_iff; reflexivity|apply only_number; exact E1|apply only_number; exact E2].
Qed.
Lemma only_call fn vs w : call f fn vs = Ok (Some w) -> applies fn vs w.
Proof.
  unfold callWith. intros H. destruct (String.eqb_spec fn "sqrt") as [->|_].
  { destruct vs as [|a r]; [discriminate|]. destruct (toFloatWith L (evalExp L f h c 0) a) as [[x|]| | |] eqn:E; cbn [bind] in H; try discriminate. injection H as <-. constructor. apply only_number. exact E. }
  destruct (String.eqb fn "distance" || String.eqb fn "angle")%bool eqn:B.
  { assert (Hfn : fn = "distance" \/ fn = "angle") by (apply orb_true_iff in B; destruct B as [B|B]; apply String.eqb_eq in B; auto). clear B.
    assert (FL : forall l, opened vs l -> bind (floatsWith L (evalExp L f h c 0) l) (fun o => match o with
              | Some [x1; y1; x2; y2] => Ok (Some (numeric L fn [x1; y1; x2; y2])) | _ => Ok None end) = Ok (Some w) -> applies fn vs w).
    { intros l O H2. destruct (floatsWith L (evalExp L f h c 0) l) as [[xs|]| | |] eqn:E; cbn [bind] in H2; try discriminate.
      destruct xs as [|x1 [|y1 [|x2 [|y2 [|z t]]]]]; try discriminate. injection H2 as <-. eapply app_coords; eauto. apply only_numbers. exact E. }
    destruct (flattenArgs vs) as [|a [|b [|d t]]] eqn:EF; try (eapply FL; [apply opened_iff; exact EF|exact H]).
    destruct (toPointWith L (evalExp L f h c 0) h a) as [[[x1 y1]|]| | |] eqn:E1; cbn [bind] in H; try discriminate.
    destruct (toPointWith L (evalExp L f h c 0) h b) as [[[x2 y2]|]| | |] eqn:E2; cbn [bind] in H; try discriminate. injection H as <-.
    eapply app_points; [exact Hfn|apply opened_iff; exact EF|apply only_point; exact E1|apply only_point; exact E2]. }
  destruct (String.eqb fn "mmToInch" || String.eqb fn "inchToMM")%bool eqn:B2; [|discriminate].
  assert (Hfn : fn = "mmToInch" \/ fn = "inchToMM") by (apply orb_true_iff in B2; destruct B2 as [B2|B2]; apply String.eqb_eq in B2; auto).
  destruct (floatsWith L (evalExp L f h c 0) vs) as [[xs|]| | |] eqn:E; cbn [bind] in H; try discriminate. apply only_numbers in E.
  destruct xs as [|x [|z t]]; try discriminate. injection H as <-. inversion E as [|a r x' l Ha Hr]; subst. inversion Hr; subst. apply app_units; auto.
Qed.
Lemma only_get name cnt w c' : cnt <= 20 -> get f name cnt = Ok (Some (w, c')) -> exists k, named name w k /\ c' = cnt + k /\ c' <= 20.
Proof.
  unfold getWith. intros HC H. destruct (Lookup f h c name) as [[v|]| | |] eqn:E; cbn [bind] in H; try discriminate.
  assert (FD : found name v) by (exists f; exact E).
  destruct (ToBool v) as [b|] eqn:B. { injection H as <- <-. exists 0. split; [eapply named_flag; eauto; apply ToBool_iff; exact B|lia]. }
  apply ToBool_none in B. destruct (dmFloat L v) as [x|] eqn:D. { injection H as <- <-. exists 0. split; [eapply named_number; eauto; apply dmFloat_iff; exact D|lia]. }
  apply dmFloat_none in D. destruct v; try (injection H as <- <-; exists 0; split; [apply named_thing; auto; intros s' Q; discriminate|lia]).
  apply IH in H. destruct H as (e & k & E2 & G & -> & K). exists (S k). split; [eapply named_expr; eauto|lia].
Qed.
Fixpoint esize (e : expr) : nat := match e with EVar _ | EConst _ => 1 | EUn _ a => S (esize a) | EBin _ a b => S (esize a + esize b) | ECall _ l => S (fold_right (fun a n => esize a + n) 0 l) end.
Lemma only_tree : forall n e cnt w c', esize e <= n -> cnt <= 20 -> evalTree L (get f) (call f) e cnt = Ok (Some (w, c')) -> exists k, gives e w k /\ c' = cnt + k /\ c' <= 20.
Proof.
  induction n as [|n IHn]; intros e cnt w c' Hn HC H; [destruct e; cbn in Hn; lia|]. destruct e as [name|v|op e|op e1 e2|fn l]; cbn [esize] in Hn.
  - cbn [evalTree] in H. apply only_get in H; auto. destruct H as (k & G & H). exists k. split; [constructor; auto|auto].
  - cbn in H. injection H as <- <-. exists 0. split; [constructor|lia].
  - cbn [evalTree] in H. destruct (evalTree L (get f) (call f) e cnt) as [[[v c1]|]| | |] eqn:E; cbn [bind] in H; try discriminate. apply IHn in E; [|lia|auto].
    destruct (unop L op v) as [u|] eqn:U; [|discriminate]. injection H as <- <-. destruct E as (k & G & E1 & E2). exists k. split; [econstructor; eauto|auto].
  - cbn [evalTree] in H. destruct (evalTree L (get f) (call f) e1 cnt) as [[[v c1]|]| | |] eqn:E; cbn [bind] in H; try discriminate. apply IHn in E; [|lia|auto]. destruct E as (k1 & G1 & -> & K1).
    destruct (evalTree L (get f) (call f) e2 (cnt + k1)) as [[[v2 c2]|]| | |] eqn:E; cbn [bind] in H; try discriminate. apply IHn in E; [|lia|auto]. destruct E as (k2 & G2 & -> & K2).
    destruct (binop L op v v2) as [u|] eqn:U; [|discriminate]. injection H as <- <-. exists (k1 + k2). split; [econstructor; eauto|lia].
  - rewrite evalTree_call in H.
    assert (A : forall l, fold_right (fun a m => esize a + m) 0 l <= n -> forall cnt vs c', cnt <= 20 -> args (get f) (call f) l cnt = Ok (Some (vs, c')) -> exists k, givesAll l vs k /\ c' = cnt + k /\ c' <= 20).
    { clear H HC Hn l cnt c'. induction l as [|a l IHl]; intros Hl cnt vs c' HC H; cbn [fold_right] in Hl.
      - cbn in H. injection H as <- <-. exists 0. split; [constructor|lia].
      - rewrite args_cons in H. destruct (evalTree L (get f) (call f) a cnt) as [[[v c1]|]| | |] eqn:E; cbn [bind] in H; try discriminate. apply IHn in E; [|lia|auto]. destruct E as (k1 & G1 & -> & K1).
        destruct (args (get f) (call f) l (cnt + k1)) as [[[vs2 c2]|]| | |] eqn:E; cbn [bind] in H; try discriminate. apply IHl in E; [|lia|auto]. destruct E as (k2 & G2 & -> & K2).
        injection H as <- <-. exists (k1 + k2). split; [econstructor; eauto|lia]. }
    destruct (args (get f) (call f) l cnt) as [[[vs c1]|]| | |] eqn:E; cbn [bind] in H; try discriminate. apply A in E; [|lia|auto]. destruct E as (k & G & -> & K).
    destruct (call f fn vs) as [[u|]| | |] eqn:E; cbn [bind] in H; try discriminate. apply only_call in E. injection H as <- <-. exists k. split; [econstructor; eauto|auto].
Qed.
End Only.
Lemma only_exp : forall f cnt s w c', evalExp L f h c cnt s = Ok (Some (w, c')) -> exists e k, parse L s = Some e /\ gives e w k /\ c' = cnt + k /\ c' <= 20.
Proof.
  induction f as [|f IH]; intros cnt s w c' H; [discriminate|]. cbn [evalExp] in H. unfold maxRecursion in H. destruct (Nat.ltb_spec 20 cnt); [discriminate|].
  destruct (parse L s) as [e|] eqn:E; [|discriminate]. apply (only_tree f IH (esize e)) in H; auto. destruct H as (k & G & E1 & E2). exists e, k. auto.
Qed.
End Spec.

(** *** evaluating with more nested calls *)
Section More.
Context (L : Lang) (h : heap).
Definition below {A} (a b : res A) : Prop := forall o, a = Ok o -> b = Ok o.
Lemma below_refl {A} (a : res A) : below a a. Proof. intros o H. exact H. Qed.
Lemma below_bind {A B} (a a' : res A) (k k' : A -> res B) : below a a' -> (forall x, below (k x) (k' x)) -> below (bind a k) (bind a' k').
Proof. intros H1 H2 o H. destruct a as [x| | |]; cbn [bind] in H; try discriminate. rewrite (H1 x eq_refl). cbn [bind]. apply H2. exact H. Qed.
Context (ev ev' : string -> evaluated) (HE : forall s, below (ev s) (ev' s)).
Lemma toFloat_below v : below (toFloatWith L ev v) (toFloatWith L ev' v).
Proof. destruct v; try apply below_refl. cbn [toFloatWith]. apply below_bind; [apply HE|intros x; apply below_refl]. Qed.
Lemma toPoint_below v : below (toPointWith L ev h v) (toPointWith L ev' h v).
Proof.
  unfold toPointWith. destruct (entries h v) as [l|]; [|apply below_refl]. cbn zeta. apply below_bind; [apply toFloat_below|]. intros [x|]; [|apply below_refl].
  apply below_bind; [apply toFloat_below|]. intros; apply below_refl.
Qed.
Lemma floats_below : forall l, below (floatsWith L ev l) (floatsWith L ev' l).
Proof.
  induction l as [|a l IH]; cbn [floatsWith]; [apply below_refl|]. apply below_bind; [apply toFloat_below|]. intros [x|]; [|apply below_refl]. apply below_bind; [exact IH|]. intros; apply below_refl.
Qed.
Lemma call_below f vs : below (callWith L ev h f vs) (callWith L ev' h f vs).
Proof.
  unfold callWith. destruct (String.eqb f "sqrt").
  { destruct vs as [|a r]; [apply below_refl|]. apply below_bind; [apply toFloat_below|]. intros; apply below_refl. }
  destruct (String.eqb f "distance" || String.eqb f "angle")%bool.
  { destruct (flattenArgs vs) as [|a [|b [|d t]]]; try (apply below_bind; [apply floats_below|intros; apply below_refl]).
    apply below_bind; [apply toPoint_below|]. intros [p|]; [|apply below_refl]. apply below_bind; [apply toPoint_below|]. intros; apply below_refl. }
  destruct (String.eqb f "mmToInch" || String.eqb f "inchToMM")%bool; [|apply below_refl]. apply below_bind; [apply floats_below|intros; apply below_refl].
Qed.
End More.
Lemma tree_below L (gt gt' : string -> nat -> evaluated) (cl cl' : string -> list val -> res (option val)) : (forall name cnt, below (gt name cnt) (gt' name cnt)) -> (forall f vs, below (cl f vs) (cl' f vs)) ->
  forall n e cnt, esize e <= n -> below (evalTree L gt cl e cnt) (evalTree L gt' cl' e cnt).
Proof.
  intros HG HCl. induction n as [|n IH]; intros e cnt Hn; [destruct e; cbn in Hn; lia|]. destruct e as [name|v|op e|op e1 e2|fn l]; cbn [esize] in Hn.
  - apply HG.
  - apply below_refl.
  - cbn [evalTree]. apply below_bind; [apply IH; lia|]. intros; apply below_refl.
  - cbn [evalTree]. apply below_bind; [apply IH; lia|]. intros [[v c]|]; [|apply below_refl]. apply below_bind; [apply IH; lia|]. intros; apply below_refl.
  - rewrite !evalTree_call. apply below_bind.
    + assert (A : forall l, fold_right (fun a m => esize a + m) 0 l <= n -> forall cnt, below (args L gt cl l cnt) (args L gt' cl' l cnt)).
      { clear Hn l cnt. induction l as [|a l IHl]; intros Hl cnt; [apply below_refl|]. cbn [fold_right] in Hl. rewrite !args_cons. apply below_bind; [apply IH; lia|].
        intros [[v c1]|]; [|apply below_refl]. apply below_bind; [apply IHl; lia|]. intros; apply below_refl. }
      apply A. lia.
    + intros [[vs c]|]; [|apply below_refl]. apply below_bind; [apply HCl|]. intros; apply below_refl.
Qed.
Lemma evalExp_more L h c : forall f cnt s, below (evalExp L f h c cnt s) (evalExp L (S f) h c cnt s).
Proof.
  induction f as [|f IH]; intros cnt s; [intros o H; discriminate|]. remember (S f) as g eqn:Eg. rewrite Eg at 1. cbn [evalExp]. destruct (Nat.ltb maxRecursion cnt); [apply below_refl|].
  destruct (parse L s) as [e|]; [|apply below_refl]. subst g. apply (tree_below L _ _ _ _) with (n := esize e); [| |auto].
  - intros name n. unfold getWith. apply below_bind; [intros o H; apply lookup_more; exact H|]. intros [v|]; [|apply below_refl]. destruct (ToBool v); [apply below_refl|]. destruct (dmFloat L v); [apply below_refl|].
    destruct v; try apply below_refl. apply IH.
  - intros fn vs. apply call_below. intros s'. apply IH.
Qed.
Lemma ToFloat64_more L h c f g v o : f <= g -> ToFloat64 L f h c v = Ok o -> ToFloat64 L g h c v = Ok o.
Proof.
  intros LE. induction LE as [|g LE IH]; auto. intros H. apply IH in H. revert o H IH. unfold ToFloat64. intros o H _.
  eapply toFloat_below; [|exact H]. intros s. apply evalExp_more.
Qed.

(** *** the theorems *)
(** A value is turned into a number exactly if it is a number or an expression for one, and into that number; this needs finitely many nested calls. *)
Theorem C94_value L h c v x : isNumber L h c v x <-> exists n, forall f, n <= f -> ToFloat64 L f h c v = Ok (Some x).
Proof.
  split; [apply evaluates|]. intros [n H]. apply (only_number L h c n (only_exp L h c n)). apply H. lia.
Qed.
(** No number ever comes out but that one. *)
Theorem C94_only L h c f v x : ToFloat64 L f h c v = Ok (Some x) -> isNumber L h c v x.
Proof. apply only_number. apply only_exp. Qed.
(** What is refused once, or read as another number, is no expression for the number. *)
Theorem C94_refused L h c f v o x : ToFloat64 L f h c v = Ok o -> o <> Some x -> ~ isNumber L h c v x.
Proof.
  intros E N H. apply C94_value in H. destruct H as [n H]. specialize (H (f + n) ltac:(lia)). rewrite (ToFloat64_more L h c f (f + n) v o ltac:(lia) E) in H. congruence.
Qed.
Theorem C94_unique L h c v x y : isNumber L h c v x -> isNumber L h c v y -> x = y.
Proof.
  intros H1 H2. apply C94_value in H1, H2. destruct H1 as [n1 H1], H2 as [n2 H2]. specialize (H1 (n1 + n2) ltac:(lia)). specialize (H2 (n1 + n2) ltac:(lia)). congruence.
Qed.
(** A parameter or an attribute is read as the number that the value found for it is. *)
Theorem C94_parameter L h c p x : (exists n, forall f, n <= f -> pluFloat64 L f h c p = Ok (Some x)) <-> exists v, found h c p v /\ isNumber L h c v x.
Proof.
  unfold pluFloat64. split.
  - intros [n H]. specialize (H n (le_n n)). destruct (Lookup n h c p) as [[v|]| | |] eqn:E; cbn [bind] in H; try discriminate. exists v. split; [exists n; exact E|]. eapply C94_only. exact H.
  - intros (v & [g F] & H). apply C94_value in H. destruct H as [n H]. exists (g + n). intros f Hf. rewrite (lookup_le h c g f p _ ltac:(lia) F). cbn [bind]. apply H. lia.
Qed.
Theorem C94_attribute L h b p x : rooted (at_elem b) ->
  (exists n, forall f, n <= f -> attrFloat64 L f h b p = Ok (Some x)) <-> exists v, attrLookup 36 h b p 0 = Ok (Some v) /\ isNumber L h (at_elem b) v x.
Proof.
  intros R. destruct (C31_attribute h b p R) as [o Ho]. unfold attrFloat64. split.
  - intros [n H]. specialize (H (36 + n) ltac:(lia)). rewrite Ho in H by lia. rewrite Ho by lia. cbn [bind] in H. destruct o as [v|]; [|discriminate]. exists v. split; [reflexivity|]. eapply C94_only. exact H.
  - intros (v & E & H). rewrite Ho in E by lia. injection E as ->. apply C94_value in H. destruct H as [n H]. exists (36 + n). intros f Hf. rewrite Ho by lia. cbn [bind]. apply H. lia.
Qed.

(** *** sums, differences, products and quotients of numbers *)
(** the operators on numbers, as govaluate has them *)
Definition arithmetic (L : Lang) : Prop := forall x y,
  binop L "+" (VFloat x) (VFloat y) = Some (VFloat (@add FNum x y)) /\ binop L "-" (VFloat x) (VFloat y) = Some (VFloat (@sub FNum x y)) /\
  binop L "*" (VFloat x) (VFloat y) = Some (VFloat (@mul FNum x y)) /\ binop L "/" (VFloat x) (VFloat y) = Some (VFloat (@div FNum x y)) /\ unop L "-" (VFloat x) = Some (VFloat (@opp FNum x)).
(** what an arithmetic expression is worth if the names are worth [rho] *)
Inductive worth (rho : string -> spec_float) : expr -> spec_float -> Prop :=
| worth_name name : worth rho (EVar name) (rho name)
| worth_number x : worth rho (EConst (VFloat x)) x
| worth_minus e x : worth rho e x -> worth rho (EUn "-" e) (@opp FNum x)
| worth_sum e1 e2 x y : worth rho e1 x -> worth rho e2 y -> worth rho (EBin "+" e1 e2) (@add FNum x y)
| worth_difference e1 e2 x y : worth rho e1 x -> worth rho e2 y -> worth rho (EBin "-" e1 e2) (@sub FNum x y)
| worth_product e1 e2 x y : worth rho e1 x -> worth rho e2 y -> worth rho (EBin "*" e1 e2) (@mul FNum x y)
| worth_quotient e1 e2 x y : worth rho e1 x -> worth rho e2 y -> worth rho (EBin "/" e1 e2) (@div FNum x y).
Inductive uses : expr -> string -> Prop :=
| uses_name n : uses (EVar n) n
| uses_un op e n : uses e n -> uses (EUn op e) n
| uses_left op e1 e2 n : uses e1 n -> uses (EBin op e1 e2) n
| uses_right op e1 e2 n : uses e2 n -> uses (EBin op e1 e2) n.
Definition stores (L : Lang) h c (name : string) (x : spec_float) : Prop := exists v, found h c name v /\ noFlag v /\ reads L v x.

(** An arithmetic expression over parameters that are numbers, of any size and with any number of uses, has its usual value, each step rounded. *)
Theorem C94_arithmetic L h c rho s e x : arithmetic L -> parse L (dropDollars s) = Some e -> worth rho e x -> (forall name, uses e name -> stores L h c name (rho name)) ->
  exists n, forall f, n <= f -> ToFloat64 L f h c (VStr s) = Ok (Some x).
Proof.
  intros A P W U. apply C94_value. apply (is_text L h c s e (VFloat x) x 0); [exact P| |lia|constructor]. clear P s.
  induction W as [name|x|e x W IH|e1 e2 x y W1 IH1 W2 IH2|e1 e2 x y W1 IH1 W2 IH2|e1 e2 x y W1 IH1 W2 IH2|e1 e2 x y W1 IH1 W2 IH2].
  - destruct (U name ltac:(constructor)) as (v & F & NF & R). constructor. eapply named_number; eauto.
  - constructor.
  - econstructor; [apply IH; intros; apply U; constructor; auto|]. apply (A x x).
  - change 0 with (0 + 0). econstructor; [apply IH1; intros; apply U; apply uses_left; auto|apply IH2; intros; apply U; apply uses_right; auto|]. apply (A x y).
  - change 0 with (0 + 0). econstructor; [apply IH1; intros; apply U; apply uses_left; auto|apply IH2; intros; apply U; apply uses_right; auto|]. apply (A x y).
  - change 0 with (0 + 0). econstructor; [apply IH1; intros; apply U; apply uses_left; auto|apply IH2; intros; apply U; apply uses_right; auto|]. apply (A x y).
  - change 0 with (0 + 0). econstructor; [apply IH1; intros; apply U; apply uses_left; auto|apply IH2; intros; apply U; apply uses_right; auto|]. apply (A x y).
Qed.

(** *** the functions *)
Local Open Scope num_scope.
(** the numbers of a point have no minus zero *)
Definition unsigned (x : spec_float) : spec_float := match x with S754_zero _ => S754_zero false | _ => x end.
(** what the functions compute, on numbers *)
Inductive computes (tr : Trig FNum) : string -> list spec_float -> spec_float -> Prop :=
| comp_sqrt x : computes tr "sqrt" [x] (@nsqrt FNum x)
| comp_inch x : computes tr "mmToInch" [x] (@div FNum x (@ofZ FNum 254 / @ofZ FNum 10))
| comp_mm x : computes tr "inchToMM" [x] (@mul FNum x (@ofZ FNum 254 / @ofZ FNum 10))
| comp_distance x1 y1 x2 y2 : computes tr "distance" [x1; y1; x2; y2]
    (let dx := @sub FNum (unsigned x1) (unsigned x2) in let dy := @sub FNum (unsigned y1) (unsigned y2) in nsqrt (dx * dx + dy * dy))
| comp_angle x1 y1 x2 y2 : computes tr "angle" [x1; y1; x2; y2]
    (@ofZ FNum 180 / npi tr * natan2 tr (@sub FNum (unsigned y2) (unsigned y1)) (@sub FNum (unsigned x2) (unsigned x1))).
Lemma unsigned_norm (x : T FNum) : norm0 x = unsigned x.
Proof. destruct x as [s|s| |s m e]; try reflexivity; unfold norm0; destruct s; reflexivity. Qed.
Lemma goDistance tr x1 y1 x2 y2 : exists y, computes tr "distance" [x1; y1; x2; y2] y /\ goNumeric tr "distance" [x1; y1; x2; y2] = VFloat y.
Proof.
  eexists. split; [apply comp_distance|]. cbn [goNumeric]. change (String.eqb "distance" "distance") with true. cbn iota. unfold Distance, NewPoint. cbn [px py].
  rewrite !unsigned_norm. reflexivity.
Qed.
Lemma goAngle tr x1 y1 x2 y2 : exists y, computes tr "angle" [x1; y1; x2; y2] y /\ goNumeric tr "angle" [x1; y1; x2; y2] = VFloat y.
Proof.
  eexists. split; [apply comp_angle|]. cbn [goNumeric]. change (String.eqb "angle" "distance") with false. change (String.eqb "angle" "angle") with true. cbn iota. unfold GeomTransforms.LineAngle, NewPoint. cbn [px py].
  rewrite !unsigned_norm. reflexivity.
Qed.
Section Functions.
Context (tr : Trig FNum) (L : Lang) (h : heap) (c : chain) (EN : forall f l, numeric L f l = goNumeric tr f l).

(** There are five functions, and a call of one is the number it computes from the numbers that its arguments are: of four numbers, or of two points. *)
Theorem C94_functions f vs w : applies L h c f vs w -> exists xs y, computes tr f xs y /\ w = VFloat y /\
  ((exists x, xs = [x] /\ exists a r, vs = a :: r /\ isNumber L h c a x /\ (f <> "sqrt" -> r = [])) \/
   (exists x1 y1 x2 y2 l, xs = [x1; y1; x2; y2] /\ opened vs l /\ (areNumbers L h c l xs \/ exists a b, l = [a; b] /\ isPoint L h c a x1 y1 /\ isPoint L h c b x2 y2))).
Proof.
  intros H. inversion H; subst.
  - exists [x], (@nsqrt FNum x). split; [constructor|]. split; [rewrite EN; reflexivity|]. left. exists x. split; [reflexivity|]. exists a, r. split; [reflexivity|]. split; [assumption|]. congruence.
  - assert (C : exists y, computes tr f [x1; y1; x2; y2] y /\ numeric L f [x1; y1; x2; y2] = VFloat y)
      by (rewrite EN; destruct H0; subst f; [apply goDistance|apply goAngle]).
    destruct C as (y & C & E). exists [x1; y1; x2; y2], y. split; [exact C|]. split; [exact E|]. right. exists x1, y1, x2, y2, [a; b]. split; [reflexivity|]. split; [assumption|]. right. exists a, b. auto.
  - assert (C : exists y, computes tr f [x1; y1; x2; y2] y /\ numeric L f [x1; y1; x2; y2] = VFloat y)
      by (rewrite EN; destruct H0; subst f; [apply goDistance|apply goAngle]).
    destruct C as (y & C & E). exists [x1; y1; x2; y2], y. split; [exact C|]. split; [exact E|]. right. exists x1, y1, x2, y2, l. split; [reflexivity|]. split; [assumption|]. left. assumption.
  - assert (C : exists y, computes tr f [x] y /\ numeric L f [x] = VFloat y) by (destruct H0; subst f; eexists; (split; [first [apply comp_inch|apply comp_mm]|rewrite EN; reflexivity])).
    destruct C as (y & C & E). exists [x], y. split; [exact C|]. split; [exact E|]. left. exists x. split; [reflexivity|]. exists a, []. auto.
Qed.
(** and each of them can be written, as the whole of an expression *)
Theorem C94_call s f es vs w y : parse L (dropDollars s) = Some (ECall f es) -> givesAll L h c es vs w -> (w <= 20)%nat -> applies L h c f vs (VFloat y) ->
  exists n, forall g, (n <= g)%nat -> ToFloat64 L g h c (VStr s) = Ok (Some y).
Proof. intros P G K A. apply C94_value. eapply is_text; [exact P|econstructor; eauto|exact K|constructor]. Qed.
End Functions.
Local Close Scope num_scope.

(** *** a language of sums *)
(** text without a sum is a number if it is a figure, or else a name *)
Definition figure (s : string) : option spec_float :=
  match s with String a EmptyString => let n := nat_of_ascii a in if (Nat.leb 48 n && Nat.leb n 57)%bool then Some (floatOfZ (Z.of_nat (n - 48))) else None | _ => None end.
Definition term (s : string) : expr := match figure s with Some x => EConst (VFloat x) | None => EVar s end.
Fixpoint sumOf (l : list string) (e : expr) : expr := match l with [] => e | a :: r => sumOf r (EBin "+" e (term a)) end.
Fixpoint splitPlus (s : string) : list string :=
  match s with
  | EmptyString => [EmptyString]
  | String a r => if Ascii.eqb a "+"%char then EmptyString :: splitPlus r else match splitPlus r with [] => [String a EmptyString] | w :: ws => String a w :: ws end
  end.
Definition noTrig94 : Trig FNum := mkTrig FNum (fun x => x) (fun x => x) (fun x => x) (fun x _ => x) (floatOfZ 3).
Definition sumLang : Lang := mkLang
  (fun s => if String.eqb s "distance(corner,9,9)" then Some (ECall "distance" [EVar "corner"; EConst (VFloat (floatOfZ 9)); EConst (VFloat (floatOfZ 9))])
            else match splitPlus s with [] => None | a :: r => Some (sumOf r (term a)) end)
  (fun op v => match v with VFloat x => Some (VFloat (@opp FNum x)) | _ => None end)
  (fun op v w => match v, w with
                 | VFloat x, VFloat y => if String.eqb op "+" then Some (VFloat (@add FNum x y)) else if String.eqb op "-" then Some (VFloat (@sub FNum x y))
                                         else if String.eqb op "*" then Some (VFloat (@mul FNum x y)) else if String.eqb op "/" then Some (VFloat (@div FNum x y)) else None
                 | _, _ => None end)
  figure (fun _ => "") (goNumeric noTrig94).
(** a document of width 3 with a wall of 1+1, an element with an attribute *)
Definition shelf : heap := mkHeap 4 (fun a => match a with
  | 0 => [("params", VMap 1)]
  | 1 => [("width", VInt 3); ("wall", VStr "1+1"); ("corner", VSlice [VInt 6; VStr "width+2"])]
  | 2 => [("size", VStr "$width+wall+wall"); ("plain", VStr "width+width")]
  | _ => [] end).
Definition shelfRoot : chain := Root (mkElem None 0 None None).
Definition shelfAttr : attr := mkAttr (Child (mkElem None 2 None None) shelfRoot) 2.
Definition sumTree : expr := EBin "+" (EBin "+" (EVar "width") (EVar "wall")) (EVar "wall").

Lemma noFlag_by v : ToBool v = None -> noFlag v. Proof. apply ToBool_none. Qed.
Lemma sum_gives : gives sumLang shelf (at_elem shelfAttr) sumTree (VFloat (floatOfZ 7)) 2.
Proof.
  assert (W : named sumLang shelf (at_elem shelfAttr) "wall" (VFloat (floatOfZ 2)) 1).
  { apply (named_expr _ _ _ _ "1+1" (EBin "+" (EConst (VFloat (floatOfZ 1))) (EConst (VFloat (floatOfZ 1)))) _ 0).
    - exists 30. vm_compute. reflexivity.
    - apply noFlag_by. reflexivity.
    - apply dmFloat_none. reflexivity.
    - vm_compute. reflexivity.
    - change 0 with (0 + 0). econstructor; [constructor|constructor|vm_compute; reflexivity]. }
  change 2 with (0 + 1 + 1). eapply gives_bin; [eapply gives_bin|constructor; exact W|].
  - constructor. apply (named_number _ _ _ _ (VInt 3)); [exists 30; vm_compute; reflexivity|apply noFlag_by; reflexivity|constructor].
  - constructor. exact W.
  - vm_compute. reflexivity.
  - vm_compute. reflexivity.
Qed.
Example C94_value_example : isNumber sumLang shelf (at_elem shelfAttr) (VStr "$width+wall+wall") (floatOfZ 7) /\
  ToFloat64 sumLang 30 shelf (at_elem shelfAttr) (VStr "$width+wall+wall") = Ok (Some (floatOfZ 7)) /\ floatOfZ 7 <> floatOfZ 5.
Proof.
  split; [|split; [vm_compute; reflexivity|vm_compute; discriminate]]. eapply is_text; [vm_compute; reflexivity|exact sum_gives|lia|constructor].
Qed.
Example C94_only_example : ToFloat64 sumLang 30 shelf (at_elem shelfAttr) (VStr "$width+wall+wall") = Ok (Some (floatOfZ 7)) /\ ToFloat64 sumLang 30 shelf (at_elem shelfAttr) (VStr "height") = Ok None.
Proof. split; vm_compute; reflexivity. Qed.
Example C94_unique_example : isNumber sumLang shelf (at_elem shelfAttr) (VStr "$width+wall+wall") (floatOfZ 7). Proof. apply C94_value_example. Qed.
Example C94_parameter_example : pluFloat64 sumLang 30 shelf (at_elem shelfAttr) "size" = Ok (Some (floatOfZ 7)) /\ found shelf (at_elem shelfAttr) "size" (VStr "$width+wall+wall").
Proof. split; [vm_compute; reflexivity|]. exists 30. vm_compute. reflexivity. Qed.
Example C94_attribute_example : rooted (at_elem shelfAttr) /\ attrLookup 36 shelf shelfAttr "size" 0 = Ok (Some (VStr "$width+wall+wall")) /\ attrFloat64 sumLang 36 shelf shelfAttr "size" = Ok (Some (floatOfZ 7)).
Proof. split; [exact I|]. split; vm_compute; reflexivity. Qed.
Example C94_arithmetic_example : arithmetic sumLang /\ worth (fun _ => floatOfZ 3) (EBin "+" (EVar "width") (EVar "width")) (@add FNum (floatOfZ 3) (floatOfZ 3)) /\
  parse sumLang (dropDollars "width+width") = Some (EBin "+" (EVar "width") (EVar "width")) /\ stores sumLang shelf (at_elem shelfAttr) "width" (floatOfZ 3) /\
  attrFloat64 sumLang 36 shelf shelfAttr "plain" = Ok (Some (floatOfZ 6)).
Proof.
  split; [intros x y; repeat split|]. split; [constructor; constructor|]. split; [vm_compute; reflexivity|]. split; [|vm_compute; reflexivity].
  exists (VInt 3). split; [exists 30; vm_compute; reflexivity|]. split; [apply noFlag_by; reflexivity|constructor].
Qed.
(** the distance of the corner (6,5) from (9,9) is 5 *)
Lemma corner_gives : givesAll sumLang shelf shelfRoot [EVar "corner"; EConst (VFloat (floatOfZ 9)); EConst (VFloat (floatOfZ 9))] [VSlice [VInt 6; VStr "width+2"]; VFloat (floatOfZ 9); VFloat (floatOfZ 9)] 0.
Proof.
  change 0 with (0 + (0 + (0 + 0))). constructor; [|constructor; [constructor|constructor; [constructor|constructor]]]. constructor. apply named_thing.
  - exists 30. vm_compute. reflexivity.
  - apply noFlag_by. reflexivity.
  - apply dmFloat_none. reflexivity.
  - intros s H. discriminate.
Qed.
Lemma corner_distance : applies sumLang shelf shelfRoot "distance" [VSlice [VInt 6; VStr "width+2"]; VFloat (floatOfZ 9); VFloat (floatOfZ 9)] (VFloat (floatOfZ 5)).
Proof.
  replace (VFloat (floatOfZ 5)) with (numeric sumLang "distance" [floatOfZ 6; floatOfZ 5; floatOfZ 9; floatOfZ 9]) by (vm_compute; reflexivity).
  eapply app_coords; [left; reflexivity|apply opened_iff; reflexivity|]. repeat apply are_cons; [| | | |constructor].
  - apply is_plain; [intros s H; discriminate|constructor].
  - eapply C94_only with (f := 30). vm_compute. reflexivity.
  - apply is_plain; [intros s H; discriminate|constructor].
  - apply is_plain; [intros s H; discriminate|constructor].
Qed.
Example C94_functions_example : (forall f l, numeric sumLang f l = goNumeric noTrig94 f l) /\
  applies sumLang shelf shelfRoot "distance" [VSlice [VInt 6; VStr "width+2"]; VFloat (floatOfZ 9); VFloat (floatOfZ 9)] (VFloat (floatOfZ 5)).
Proof. split; [reflexivity|exact corner_distance]. Qed.
Example C94_call_example : parse sumLang (dropDollars "distance(corner,9,9)") = Some (ECall "distance" [EVar "corner"; EConst (VFloat (floatOfZ 9)); EConst (VFloat (floatOfZ 9))]) /\
  ToFloat64 sumLang 30 shelf shelfRoot (VStr "distance(corner,9,9)") = Ok (Some (floatOfZ 5)).
Proof. split; vm_compute; reflexivity. Qed.

(** *** the limit *)
(** The limit of 20 is on names replaced in one expression altogether, not on how deep they are nested: 20 walls of "1+1" can be added up, 21 cannot,
    although the name is nested only once and the sum has the value 42. *)
Fixpoint walls (n : nat) : string := match n with O => "wall" | S k => ("wall+" ++ walls k)%string end.
Fixpoint grow (n : nat) (x : spec_float) : spec_float := match n with O => x | S k => grow k (@add FNum x (floatOfZ 2)) end.
Theorem C94_limit_refuted :
  ToFloat64 sumLang 30 shelf shelfRoot (VStr (walls 19)) = Ok (Some (floatOfZ 40)) /\
  (exists e, parse sumLang (dropDollars (walls 20)) = Some e /\ gives sumLang shelf shelfRoot e (VFloat (floatOfZ 42)) 21) /\
  forall f x, ToFloat64 sumLang f shelf shelfRoot (VStr (walls 20)) <> Ok (Some x).
Proof.
  split; [vm_compute; reflexivity|].
  assert (W : named sumLang shelf shelfRoot "wall" (VFloat (floatOfZ 2)) 1).
  { apply (named_expr _ _ _ _ "1+1" (EBin "+" (EConst (VFloat (floatOfZ 1))) (EConst (VFloat (floatOfZ 1)))) _ 0).
    - exists 30. vm_compute. reflexivity.
    - apply noFlag_by. reflexivity.
    - apply dmFloat_none. reflexivity.
    - vm_compute. reflexivity.
    - change 0 with (0 + 0). econstructor; [constructor|constructor|vm_compute; reflexivity]. }
  assert (G : gives sumLang shelf shelfRoot (sumOf (repeat "wall" 20) (EVar "wall")) (VFloat (floatOfZ 42)) 21).
  { assert (S : forall n e x k, gives sumLang shelf shelfRoot e (VFloat x) k ->
      gives sumLang shelf shelfRoot (sumOf (repeat "wall" n) e) (VFloat (grow n x)) (k + n)).
    { induction n as [|n IH]; intros e x k H; [cbn; rewrite Nat.add_0_r; exact H|]. cbn [repeat sumOf]. replace (k + S n) with (k + 1 + n) by lia.
      cbn [grow]. apply IH. eapply gives_bin; [exact H|constructor; exact W|reflexivity]. }
    specialize (S 20 (EVar "wall") (floatOfZ 2) 1 ltac:(constructor; exact W)). exact S. }
  split; [exists (sumOf (repeat "wall" 20) (EVar "wall")); split; [vm_compute; reflexivity|exact G]|].
  intros f x H. apply C94_only in H. apply (C94_refused sumLang shelf shelfRoot 60 _ None x) in H; [exact H|vm_compute; reflexivity|discriminate].
Qed.
Example C94_refused_example : ToFloat64 sumLang 60 shelf shelfRoot (VStr (walls 20)) = Ok None /\ ToFloat64 sumLang 60 shelf shelfRoot (VStr (walls 2)) = Ok (Some (floatOfZ 6)).
Proof. split; vm_compute; reflexivity. Qed.
Print Assumptions C94_value. Print Assumptions C94_only. Print Assumptions C94_refused. Print Assumptions C94_unique. Print Assumptions C94_parameter. Print Assumptions C94_attribute.
Print Assumptions C94_arithmetic. Print Assumptions C94_functions. Print Assumptions C94_call. Print Assumptions C94_limit_refuted.
