(** C31, continued: what a lookup may do besides giving an answer. *)
From Coq Require Import String Ascii List ZArith Bool Arith Lia.
From Coq.Floats Require Import SpecFloat.
From Verif Require Import Num DynModel ParamModel Prop_C31.
Import ListNotations.
Local Open Scope string_scope.
Local Open Scope list_scope.

(** It gives an answer, or goes on: no error, no panic. *)
Definition quiet {A : Type} (r : res A) : Prop := match r with Ok _ | OutOfFuel => True | _ => False end.
(** somewhere in the expression, a call of sqrt without arguments *)
Fixpoint hollow (e : expr) : Prop :=
  match e with
  | EUn _ e1 => hollow e1
  | EBin _ e1 e2 => hollow e1 \/ hollow e2
  | ECall f args => (f = "sqrt" /\ args = []) \/ fold_right (fun e R => hollow e \/ R) False args
  | _ => False
  end.

Lemma quiet_bind {A B} (r : res A) (k : A -> res B) : quiet r -> (forall a, quiet (k a)) -> quiet (bind r k).
Proof. destruct r; cbn; auto. Qed.
Ltac qb := repeat first [exact I | apply quiet_bind; [|intros] | match goal with |- quiet (match ?x with _ => _ end) => destruct x end | assumption].

Lemma quiet_local h e : forall f p r, quiet (localLookup f h e p r).
Proof. induction f as [|f IH]; intros p r; cbn [localLookup]; [exact I|]. destruct (Nat.ltb maxRecursion r); [exact I|]. destruct (localGet h e p) as [v|]; [destruct v; try exact I; apply IH|destruct (Nat.ltb 0 r); exact I]. Qed.
Lemma quiet_lookup f h : forall c p, rooted c -> quiet (Lookup f h c p).
Proof.
  induction c as [e|e par IH|e]; intros p R; [| |destruct R]; cbn [Lookup self]; (apply quiet_bind; [apply quiet_local|]); intros [v|]; try exact I.
  - destruct v; exact I.
  - destruct v; try exact I. apply quiet_bind; [apply IH; exact R|]. intros [v1|]; exact I.
  - apply IH. exact R.
Qed.
Lemma quiet_default h rz : forall c p r, rooted c -> (forall q v r', quiet (rz q v r')) -> quiet (lookupDefault h rz c p r).
Proof. induction c as [e|e par IH|e]; intros p r R H; [| |destruct R]; cbn [lookupDefault self]; destruct (mapGet h _ p); auto; exact I. Qed.
Lemma quiet_attr h b : rooted (at_elem b) -> forall f p r, quiet (attrLookup f h b p r).
Proof.
  intros R. induction f as [|f IH]; intros p r; cbn [attrLookup]; [exact I|]. destruct (Nat.ltb recursionMax r); [exact I|].
  assert (RZ : forall q v r', quiet (match v with VStr s => if String.eqb s q then Ok None
       else bind (attrLookup f h b s (S r')) (fun o => match o with Some v2 => Ok (Some v2) | None => Ok (Some (VStr s)) end) | _ => Ok (Some v) end)).
  { intros q v r'. destruct v; try exact I. destruct (String.eqb s q); [exact I|]. apply quiet_bind; [apply IH|]. intros [v2|]; exact I. }
  apply quiet_bind; [destruct (Get h (at_mp b) p); [apply RZ|exact I]|]. intros [v2|]; [exact I|].
  apply quiet_bind; [apply quiet_lookup; exact R|]. intros [v|]; [exact I|]. apply quiet_default; [exact R|]. exact RZ.
Qed.

Section Quiet.
Context (L : Lang) (h : heap).
Lemma quiet_float ev v : (forall s, quiet (ev s)) -> quiet (toFloatWith L ev v).
Proof. intros H. destruct v; try exact I. apply quiet_bind; [apply H|]. intros [[w n]|]; exact I. Qed.
Lemma quiet_point ev v : (forall s, quiet (ev s)) -> quiet (toPointWith L ev h v).
Proof.
  intros H. unfold toPointWith. destruct (entries h v); [|exact I]. cbv zeta. apply quiet_bind; [apply quiet_float; exact H|]. intros [x|]; [|exact I].
  apply quiet_bind; [apply quiet_float; exact H|]. intros [y|]; exact I.
Qed.
Lemma quiet_floats ev : (forall s, quiet (ev s)) -> forall vs, quiet (floatsWith L ev vs).
Proof.
  intros H. induction vs as [|v r IH]; [exact I|]. cbn [floatsWith]. apply quiet_bind; [apply quiet_float; exact H|]. intros [x|]; [|exact I].
  apply quiet_bind; [exact IH|]. intros [l|]; exact I.
Qed.
Lemma quiet_call ev f vs : (forall s, quiet (ev s)) -> f <> "sqrt" \/ vs <> [] -> quiet (callWith L ev h f vs).
Proof.
  intros H NE. unfold callWith. destruct (String.eqb_spec f "sqrt").
  - destruct vs as [|a r]; [destruct NE; congruence|]. apply quiet_bind; [apply quiet_float; exact H|]. intros [x|]; exact I.
  - destruct (String.eqb f "distance" || String.eqb f "angle")%bool.
    + assert (F : forall l, quiet (bind (floatsWith L ev l) (fun o => match o with Some [x1; y1; x2; y2] => Ok (Some (numeric L f [x1; y1; x2; y2])) | _ => Ok None end))).
      { intros l. apply quiet_bind; [apply quiet_floats; exact H|]. intros [[|? [|? [|? [|? [|? ?]]]]]|]; exact I. }
      destruct (flattenArgs vs) as [|a [|b [|c l]]]; try apply F. apply quiet_bind; [apply quiet_point; exact H|]. intros [p|]; [|exact I].
      apply quiet_bind; [apply quiet_point; exact H|]. intros [q|]; exact I.
    + destruct (String.eqb f "mmToInch" || String.eqb f "inchToMM")%bool; [|exact I]. apply quiet_bind; [apply quiet_floats; exact H|]. intros [[|? [|? ?]]|]; exact I.
Qed.
Lemma quiet_tree get call : (forall name cnt, quiet (get name cnt)) -> (forall f vs, f <> "sqrt" \/ vs <> [] -> quiet (call f vs)) ->
  forall e cnt, ~ hollow e -> quiet (evalTree L get call e cnt).
Proof.
  intros HG HC. fix IH 1. intros e cnt NH. destruct e as [name|v|op e1|op e1 e2|f args]; cbn [evalTree hollow] in *.
  - apply HG.
  - exact I.
  - apply quiet_bind; [apply IH; exact NH|]. intros [[v c]|]; [|exact I]. destruct (unop L op v); exact I.
  - apply quiet_bind; [apply IH; tauto|]. intros [[v c]|]; [|exact I]. apply quiet_bind; [apply IH; tauto|]. intros [[w c2]|]; [|exact I]. destruct (binop L op v w); exact I.
  - assert (NA : f <> "sqrt" \/ args <> []) by (destruct args; [left; intros ->; apply NH; left; auto|right; discriminate]).
    assert (NR : ~ fold_right (fun e R => hollow e \/ R) False args) by tauto. clear NH.
    assert (GO : (fun r => quiet r /\ forall vs c, r = Ok (Some (vs, c)) -> length vs = length args) ((fix go (l : list expr) (c : nat) : res (option (list val * nat)) :=
               match l with
               | [] => Ok (Some ([], c))
               | e1 :: r => bind (evalTree L get call e1 c) (fun o => match o with
                              | None => Ok None
                              | Some (v, c1) => bind (go r c1) (fun o2 => match o2 with None => Ok None | Some (vs, c2) => Ok (Some (v :: vs, c2)) end)
                              end)
               end) args cnt)).
    { clear NA. revert cnt. induction args as [|e1 r IHr]; intros cnt; [split; [exact I|]; intros vs c E; injection E as <- <-; reflexivity|]. cbn [fold_right] in NR.
      pose proof (IH e1 cnt ltac:(tauto)) as Q1. destruct (evalTree L get call e1 cnt) as [[[v c1]|]| | |]; try destruct Q1; try (split; [exact I|discriminate]). cbn [bind].
      destruct (IHr ltac:(tauto) c1) as [Q2 L2]. set (g := (fix go (l : list expr) (c : nat) : res (option (list val * nat)) := _) r c1) in *.
      destruct g as [[[vs c2]|]| | |]; try destruct Q2; try (split; [exact I|discriminate]). cbn [bind]. split; [exact I|]. intros vs' c' E. injection E as <- <-. cbn. rewrite (L2 vs c2 eq_refl). reflexivity. }
    cbv beta in GO. destruct GO as [Q LN]. set (g := (fix go (l : list expr) (c : nat) : res (option (list val * nat)) := _) args cnt) in *.
    destruct g as [[[vs c]|]| | |]; try destruct Q; try exact I. cbn [bind]. apply quiet_bind; [|intros [v|]; exact I]. apply HC.
    destruct NA as [NA|NA]; [left; exact NA|right]. intros ->. specialize (LN [] c eq_refl). destruct args; [congruence|discriminate LN].
Qed.
Context (HP : forall s e, parse L s = Some e -> ~ hollow e) (c : chain) (R : rooted c).
Lemma quiet_eval : forall f cnt s, quiet (evalExp L f h c cnt s).
Proof.
  induction f as [|f IH]; intros cnt s; cbn [evalExp]; [exact I|]. destruct (Nat.ltb maxRecursion cnt); [exact I|]. destruct (parse L s) as [e|] eqn:E; [|exact I].
  apply quiet_tree; [| |eapply HP; exact E].
  - intros name n. unfold getWith. apply quiet_bind; [apply quiet_lookup; exact R|]. intros [v|]; [|exact I]. destruct (ToBool v); [exact I|]. destruct (dmFloat L v); [exact I|].
    destruct v; try exact I. apply IH.
  - intros fn vs NE. apply quiet_call; [intros t; apply IH|exact NE].
Qed.
End Quiet.

(** If no expression calls sqrt without arguments, asking for a number or a point, within elements that all have a parent up to the document, is answered
    (with a number, a point, or that there is none) or goes on: it never fails with an error, and never panics. *)
Theorem C31_quiet L h b cursor : (forall s e, parse L s = Some e -> ~ hollow e) -> rooted (at_elem b) -> forall fuel p v,
  quiet (ToFloat64 L fuel h (at_elem b) v) /\ quiet (pluFloat64 L fuel h (at_elem b) p) /\ quiet (attrFloat64 L fuel h b p) /\ quiet (attrPoint L fuel h cursor b p).
Proof.
  intros HP R fuel p v. assert (T : forall f w, quiet (ToFloat64 L f h (at_elem b) w)) by (intros f w; apply quiet_float; intros s; apply quiet_eval; assumption).
  split; [apply T|]. split; [apply quiet_bind; [apply quiet_lookup; exact R|intros [w|]; [apply T|exact I]]|].
  split; [apply quiet_bind; [apply quiet_attr; exact R|intros [w|]; [apply T|exact I]]|].
  revert p. induction fuel as [|f IH]; intros p; cbn [attrPoint]; [exact I|]. destruct (dollar p); [exact I|].
  apply quiet_bind; [apply quiet_attr; exact R|]. intros [w|]; [|exact I]. apply quiet_bind; [apply quiet_point; intros s; apply quiet_eval; assumption|]. intros [q|]; [exact I|].
  destruct (entries h w); [exact I|]. apply quiet_bind.
  - unfold attrString. apply quiet_bind; [apply quiet_attr; exact R|]. intros [u|]; [|exact I]. cbv zeta. destruct (plain _); [|exact I].
    apply quiet_bind; [apply quiet_lookup; exact R|]. intros [u2|]; exact I.
  - intros [st found]. destruct (splitCommas _) as [|w1 [|w2 [|w3 ws]]]; try exact I.
    + destruct (String.eqb w1 p); [exact I|apply IH].
    + apply quiet_bind; [apply T|]. intros [x|]; [|exact I]. apply quiet_bind; [apply T|]. intros [y|]; exact I.
Qed.
Print Assumptions C31_quiet.
(** a language whose expressions are names, and the names that refer to each other *)
Example C31_quiet_example : let L := mkLang (fun s => Some (EVar s)) (fun _ _ => None) (fun _ _ _ => None) (fun _ => None) (fun _ => "") (fun _ _ => VNil) in
  (forall s e, parse L s = Some e -> ~ hollow e) /\ rooted (at_elem mirrorAttr) /\ pluFloat64 L 50 mirror (at_elem mirrorAttr) "from" = Ok None /\
  attrPoint L 50 mirror (fun _ => None) mirrorAttr "other" = Ok None /\ hollow (EBin "+" (EVar "x") (ECall "sqrt" [])).
Proof. cbv zeta. split; [intros s e E; injection E as <-; intros H; exact H|]. split; [exact I|]. split; [vm_compute; reflexivity|]. split; [vm_compute; reflexivity|]. right. left. auto. Qed.
