(** C45: errors logged anywhere are seen at the top. *)
From Coq Require Import String List Arith Bool Lia.
From Verif Require Import LogModel.
Import ListNotations.

(** ** specification, in terms of the history of calls only *)
(** the parents of the logs created so far, in order of creation *)
Fixpoint created (h : list call) : list (option nat) :=
  match h with
  | [] => []
  | CNew :: r => None :: created r
  | CChild i :: r => Some i :: created r
  | CLog _ _ :: r => created r
  end.
(** calls refer to logs that exist *)
Fixpoint valid (n : nat) (h : list call) : Prop :=
  match h with
  | [] => True
  | CNew :: r => valid (S n) r
  | CChild i :: r => i < n /\ valid (S n) r
  | CLog i _ :: r => i < n /\ valid n r
  end.
Definition childOf (h : list call) (j i : nat) : Prop := nth_error (created h) j = Some (Some i).
(** j is i or derived from it, at any depth *)
Inductive under (h : list call) (i : nat) : nat -> Prop :=
| under_self : under h i i
| under_child j k : under h i j -> childOf h k j -> under h i k.
Definition errorOn (h : list call) (j : nat) : Prop := exists t, In (CLog j (Error, t)) h.

(** ** proofs *)
Lemma run_snoc h c : run (h ++ [c]) = step (run h) c.
Proof. unfold run. rewrite fold_left_app. reflexivity. Qed.
Lemma created_snoc h c : created (h ++ [c]) = created h ++ created [c].
Proof. induction h as [|[|i|i m] r IH]; cbn [app created]; rewrite ?IH; destruct c; reflexivity. Qed.
Lemma valid_snoc n h c : valid n (h ++ [c]) <-> valid n h /\ match c with CNew => True | CChild i | CLog i _ => i < n + length (created h) end.
Proof.
  revert n. induction h as [|[|i|i m] r IH]; intros n; cbn [app valid created length].
  - destruct c; cbn; rewrite ?Nat.add_0_r; tauto.
  - rewrite IH. replace (S n + length (created r)) with (n + S (length (created r))) by lia. tauto.
  - rewrite IH. replace (S n + length (created r)) with (n + S (length (created r))) by lia. tauto.
  - rewrite IH. tauto.
Qed.
Lemma update_length i f s : length (update i f s) = length s.
Proof. revert i. induction s as [|l r IH]; intros [|i]; cbn; auto. Qed.
Lemma update_nth i f s j : nth_error (update i f s) j = if Nat.eqb j i then option_map f (nth_error s j) else nth_error s j.
Proof.
  revert i j. induction s as [|l r IH]; intros [|i] [|j]; cbn [update nth_error Nat.eqb option_map]; try reflexivity.
  - destruct (_ =? _); reflexivity.
  - apply IH.
Qed.

(** the store after a history: parents as created; the messages are those logged on it or on a direct child, in order *)
Definition heard (h : list call) (i : nat) : list message :=
  flat_map (fun c => match c with
    | CLog j m => if Nat.eqb j i then [m] else match nth_error (created h) j with Some (Some p) => if Nat.eqb p i then [m] else [] | _ => [] end
    | _ => [] end) h.

Lemma run_spec h : valid 0 h -> length (run h) = length (created h) /\
  (forall i l, nth_error (run h) i = Some l -> nth_error (created h) i = Some (l_parent l) /\ (forall p, l_parent l = Some p -> p < i)).
Proof.
  induction h as [|c h IH] using rev_ind; intros V.
  - split; [reflexivity|]. intros [|i] l E; discriminate.
  - apply valid_snoc in V as [V Vc]. cbn in Vc. destruct (IH V) as [IL IP]. rewrite run_snoc, created_snoc.
    destruct c as [|i|i m]; cbn [step created].
    + unfold NewLog. rewrite !app_length, IL. split; [reflexivity|]. intros j l E.
      destruct (Nat.lt_ge_cases j (length (run h))) as [H|H].
      * rewrite nth_error_app1 in E by exact H. rewrite nth_error_app1 by lia. apply IP, E.
      * rewrite nth_error_app2 in E by exact H. rewrite nth_error_app2 by lia. rewrite IL in E. destruct (j - length (created h)) as [|k]; [|destruct k; discriminate].
        injection E as <-. split; [reflexivity|]. discriminate.
    + unfold NewChild. rewrite !app_length, IL. split; [reflexivity|]. intros j l E.
      destruct (Nat.lt_ge_cases j (length (run h))) as [H|H].
      * rewrite nth_error_app1 in E by exact H. rewrite nth_error_app1 by lia. apply IP, E.
      * rewrite nth_error_app2 in E by exact H. rewrite nth_error_app2 by lia. rewrite IL in E. destruct (j - length (created h)) as [|k] eqn:EK; [|destruct k; discriminate].
        injection E as <-. split; [reflexivity|]. intros p E. injection E as <-. lia.
    + rewrite app_nil_r. unfold Logf. destruct (nth_error (run h) i) as [li|] eqn:Ei; [|exfalso; apply nth_error_None in Ei; lia].
      assert (U : forall k s, (forall j l, nth_error s j = Some l -> nth_error (created h) j = Some (l_parent l) /\ (forall p, l_parent l = Some p -> p < j)) ->
        forall j l, nth_error (update k (addMsg m) s) j = Some l -> nth_error (created h) j = Some (l_parent l) /\ (forall p, l_parent l = Some p -> p < j)).
      { intros k s Hs j l. rewrite update_nth. destruct (_ =? _); [|apply Hs]. destruct (nth_error s j) as [l0|] eqn:E0; [|discriminate].
        intros E; injection E as <-. cbn [addMsg l_parent]. apply Hs, E0. }
      destruct (l_parent li) as [p|]; rewrite ?update_length; (split; [exact IL|]); apply U; try apply U; exact IP.
Qed.

Lemma valid_In h : valid 0 h -> forall j m, In (CLog j m) h -> j < length (created h).
Proof.
  assert (VV : forall h' n, valid n h' -> forall j m, In (CLog j m) h' -> j < n + length (created h')).
  { induction h' as [|[|k|k m'] r IH]; intros n W j m; cbn [valid created length In] in *; [tauto| | |].
    - intros [H|H]; [discriminate|]. specialize (IH _ W j m H). lia.
    - intros [H|H]; [discriminate|]. specialize (IH _ (proj2 W) j m H). lia.
    - intros [H|H]; [injection H as <- <-; lia|]. specialize (IH _ (proj2 W) j m H). lia. }
  intros V. apply (VV h 0 V).
Qed.
Lemma heard_other h c i : (forall j, nth_error (created h) j = None \/ nth_error (created (h ++ [c])) j = nth_error (created h) j) -> valid 0 h ->
  heard (h ++ [c]) i = heard h i ++ flat_map (fun c0 => match c0 with
    | CLog j m => if Nat.eqb j i then [m] else match nth_error (created (h ++ [c])) j with Some (Some p) => if Nat.eqb p i then [m] else [] | _ => [] end
    | _ => [] end) [c].
Proof.
  intros HC V. unfold heard. rewrite flat_map_app. f_equal.
  assert (G : forall j m, In (CLog j m) h -> nth_error (created (h ++ [c])) j = nth_error (created h) j).
  { intros j m H. destruct (HC j) as [N|E]; [|exact E]. apply nth_error_None in N. pose proof (valid_In h V j m H). lia. }
  assert (Q : forall h', (forall j m, In (CLog j m) h' -> nth_error (created (h ++ [c])) j = nth_error (created h) j) -> 
     flat_map (fun c0 => match c0 with
    | CLog j m => if Nat.eqb j i then [m] else match nth_error (created (h ++ [c])) j with Some (Some p) => if Nat.eqb p i then [m] else [] | _ => [] end
    | _ => [] end) h' = flat_map (fun c0 => match c0 with
    | CLog j m => if Nat.eqb j i then [m] else match nth_error (created h) j with Some (Some p) => if Nat.eqb p i then [m] else [] | _ => [] end
    | _ => [] end) h').
  { induction h' as [|c0 r IH]; intros Hh; [reflexivity|]. cbn [flat_map]. rewrite IH by (intros; apply (Hh _ m); right; assumption).
    destruct c0 as [| |j m]; try reflexivity. rewrite (Hh j m (or_introl eq_refl)). reflexivity. }
  apply Q, G.
Qed.

Lemma run_heard h : valid 0 h -> forall i l, nth_error (run h) i = Some l ->
  l_messages l = heard h i /\ l_hasErrors l = existsb (fun m => isError (fst m)) (heard h i).
Proof.
  induction h as [|c h IH] using rev_ind; intros V i l; [destruct i; discriminate|].
  apply valid_snoc in V as [V Vc]. cbn in Vc. specialize (IH V). destruct (run_spec h V) as [IL IP].
  assert (HC : forall j, nth_error (created h) j = None \/ nth_error (created (h ++ [c])) j = nth_error (created h) j).
  { intros j. rewrite created_snoc. destruct (Nat.lt_ge_cases j (length (created h))) as [H|H]; [right; apply nth_error_app1, H|left; apply nth_error_None, H]. }
  rewrite (heard_other h c i HC V), run_snoc.
  assert (VV : forall j m, In (CLog j m) h -> j < length (created h)) by (apply valid_In; exact V).
  assert (Fresh : length (created h) <= i -> heard h i = []).
  { intros H. unfold heard. assert (Q : forall h', (forall j m, In (CLog j m) h' -> j < length (created h)) -> flat_map (fun c0 => match c0 with
    | CLog j m => if Nat.eqb j i then [m] else match nth_error (created h) j with Some (Some p) => if Nat.eqb p i then [m] else [] | _ => [] end
    | _ => [] end) h' = []); [|apply Q; exact VV].
    induction h' as [|c0 r IHr]; intros Hh; [reflexivity|]. cbn [flat_map]. rewrite IHr by (intros; apply (Hh _ m); right; assumption).
    destruct c0 as [| |j m]; try reflexivity. specialize (Hh j m (or_introl eq_refl)). assert (E : (j =? i) = false) by (apply Nat.eqb_neq; lia). rewrite E.
    destruct (nth_error (created h) j) as [[p|]|] eqn:Ej; try reflexivity.
    destruct (nth_error (run h) j) as [lj|] eqn:El; [|apply nth_error_None in El; lia]. destruct (IP j lj El) as [E1 E2]. rewrite Ej in E1. injection E1 as E1.
    assert (p < j) by (apply E2; auto). assert (E3 : (p =? i) = false) by (apply Nat.eqb_neq; lia). rewrite E3. reflexivity. }
  destruct c as [|k|k m]; cbn [step flat_map].
  - rewrite app_nil_r. unfold NewLog. destruct (Nat.lt_ge_cases i (length (run h))) as [H|H].
    + rewrite nth_error_app1 by exact H. apply IH.
    + rewrite nth_error_app2 by exact H. rewrite IL in H. rewrite (Fresh H). destruct (i - length (run h)) as [|q]; [|destruct q; discriminate]. intros E; injection E as <-. auto.
  - rewrite app_nil_r. unfold NewChild. destruct (Nat.lt_ge_cases i (length (run h))) as [H|H].
    + rewrite nth_error_app1 by exact H. apply IH.
    + rewrite nth_error_app2 by exact H. rewrite IL in H. rewrite (Fresh H). destruct (i - length (run h)) as [|q]; [|destruct q; discriminate]. intros E; injection E as <-. auto.
  - rewrite app_nil_r. rewrite created_snoc. cbn [created]. rewrite app_nil_r. unfold Logf.
    destruct (nth_error (run h) k) as [lk|] eqn:Ek; [|exfalso; apply nth_error_None in Ek; lia]. destruct (IP k lk Ek) as [E1 E2]. rewrite E1.
    assert (A : forall l0, l_messages l0 = heard h i -> l_hasErrors l0 = existsb (fun m => isError (fst m)) (heard h i) ->
      l_messages (addMsg m l0) = heard h i ++ [m] /\ l_hasErrors (addMsg m l0) = existsb (fun m => isError (fst m)) (heard h i ++ [m])).
    { intros l0 M1 M2. cbn [addMsg l_messages l_hasErrors]. rewrite M1, M2, existsb_app. cbn [existsb]. split; [reflexivity|]. destruct (isError (fst m)); rewrite ?orb_true_r, ?orb_false_r; reflexivity. }
    destruct (l_parent lk) as [p|] eqn:Ep.
    + specialize (E2 p eq_refl). rewrite !update_nth. destruct (Nat.eqb_spec k i) as [->|N].
      * rewrite Nat.eqb_refl. assert (F : (i =? p) = false) by (apply Nat.eqb_neq; lia). rewrite F. rewrite Ek. cbn [option_map]. intros E; injection E as <-.
        apply A; apply (IH i lk Ek).
      * rewrite (Nat.eqb_sym i p). assert (F : (i =? k) = false) by (apply Nat.eqb_neq; lia). rewrite F. destruct (Nat.eqb_spec p i) as [->|N'].
        -- destruct (nth_error (run h) i) as [li|] eqn:Ei; [|discriminate]. cbn [option_map]. intros E; injection E as <-. apply A; apply (IH i li Ei).
        -- rewrite app_nil_r. apply IH.
    + rewrite update_nth. destruct (Nat.eqb_spec k i) as [->|N].
      * rewrite Nat.eqb_refl, Ek. cbn [option_map]. intros E; injection E as <-. apply A; apply (IH i lk Ek).
      * assert (F : (i =? k) = false) by (apply Nat.eqb_neq; lia). rewrite F, app_nil_r. apply IH.
Qed.

(** ** theorems *)
(** Full claim: at any depth, see [C45_depth_refuted].  Proved: errors logged on the log itself and on its children, and exactly those,
    whatever the history; the messages kept are those of the log itself and of its children, in the order they were logged. *)
Theorem C45_children_partial : forall h i, valid 0 h -> i < length (created h) ->
  HasErrors i (run h) = true <-> errorOn h i \/ exists j, childOf h j i /\ errorOn h j.
Proof.
  intros h i V Hi. destruct (run_spec h V) as [IL _]. unfold HasErrors.
  destruct (nth_error (run h) i) as [l|] eqn:E; [|apply nth_error_None in E; lia].
  destruct (run_heard h V i l E) as [_ ->]. rewrite existsb_exists. unfold heard. split.
  - intros (m & Hm & He). apply in_flat_map in Hm as ([| |j m'] & Hc & Hm); try destruct Hm. destruct m as [[| | |] t]; try discriminate He.
    destruct (Nat.eqb_spec j i) as [->|N].
    + destruct Hm as [->|[]]. left. exists t. exact Hc.
    + destruct (nth_error (created h) j) as [[p|]|] eqn:Ej; try destruct Hm. destruct (Nat.eqb_spec p i) as [->|N']; [|destruct Hm].
      destruct Hm as [->|[]]. right. exists j. split; [exact Ej|]. exists t. exact Hc.
  - intros [(t & H)|(j & Hj & t & H)]; exists (Error, t); (split; [|reflexivity]); apply in_flat_map.
    + exists (CLog i (Error, t)). split; [exact H|]. rewrite Nat.eqb_refl. left. reflexivity.
    + exists (CLog j (Error, t)). split; [exact H|]. destruct (j =? i); [left; reflexivity|]. rewrite Hj, Nat.eqb_refl. left. reflexivity.
Qed.
Print Assumptions C45_children_partial.

Theorem C45_messages : forall h i l, valid 0 h -> nth_error (run h) i = Some l -> l_messages l = heard h i.
Proof. intros h i l V E. apply (run_heard h V i l E). Qed.
Print Assumptions C45_messages.

(** Finding: a child passes a message to its parent only, and does not have it passed on: an error two levels down is not seen at the top. *)
Theorem C45_depth_refuted : exists h, valid 0 h /\ under h 0 2 /\ errorOn h 2 /\ HasErrors 0 (run h) = false.
Proof.
  exists [CNew; CChild 0; CChild 1; CLog 2 (Error, "cannot render"%string)]. split; [cbn; lia|]. split; [|split; [|reflexivity]].
  - apply (under_child _ _ 1); [apply (under_child _ _ 0); [constructor|reflexivity]|reflexivity].
  - exists "cannot render"%string. cbn. tauto.
Qed.
Print Assumptions C45_depth_refuted.

Example C45_example : let h := [CNew; CChild 0; CLog 1 (Info, "a"%string); CChild 0; CLog 2 (Error, "b"%string)] in
  valid 0 h /\ childOf h 2 0 /\ HasErrors 0 (run h) = true /\ HasErrors 1 (run h) = false /\ HasErrors 2 (run h) = true /\ heard h 0 = [(Info, "a"%string); (Error, "b"%string)].
Proof. cbn. repeat split; lia. Qed.
