(** C86: numbers and lists read from a map. *)
From Coq Require Import String Ascii List ZArith NArith Bool Arith Lia Decimal DecimalFacts DecimalPos DecimalString DecimalZ.
From Coq.Floats Require Import SpecFloat.
From Verif Require Import Num FloatNum DynModel DynProofs Prop_C27 MergeProofs FlattenProofs SvgParse SvgElement DynRead.
Import ListNotations.
Local Open Scope string_scope.
Local Open Scope list_scope.

(** *** specification *)
(** an integer written in decimal *)
Definition decimal (z : Z) : string := NilZero.string_of_int (Z.to_int z).
Definition int64 (z : Z) : Prop := (- 2 ^ 63 <= z < 2 ^ 63)%Z.
Fixpoint every (P : ascii -> bool) (s : string) : bool := match s with "" => true | String c r => P c && every P r end.
Definition blanks (s : string) : Prop := every isBlank s = true.
(** texts with a delimiter between them *)
Fixpoint joined (delim : string) (ws : list string) : string :=
  match ws with [] => "" | [w] => w | w :: r => (w ++ delim ++ joined delim r)%string end.
Definition avoids (c : ascii) (w : string) : Prop := every (fun d => negb (Ascii.eqb c d)) w = true.

(** *** decimal texts *)
Fixpoint value (acc : Z) (d : uint) : Z :=
  match d with
  | Nil => acc
  | D0 l => value (acc * 10) l | D1 l => value (acc * 10 + 1) l | D2 l => value (acc * 10 + 2) l | D3 l => value (acc * 10 + 3) l | D4 l => value (acc * 10 + 4) l
  | D5 l => value (acc * 10 + 5) l | D6 l => value (acc * 10 + 6) l | D7 l => value (acc * 10 + 7) l | D8 l => value (acc * 10 + 8) l | D9 l => value (acc * 10 + 9) l
  end.
Lemma digits_uint d : forall acc, digits 10 acc (NilEmpty.string_of_uint d) = Some (value acc d).
Proof. induction d; intros acc; cbn -[Z.mul Z.add]; rewrite ?IHd; try reflexivity. rewrite Z.add_0_r. reflexivity. Qed.
Lemma value_acc d : forall p, value (Zpos p) d = Zpos (Pos.of_uint_acc d p).
Proof. induction d; intros p; cbn [value Pos.of_uint_acc]; try reflexivity; rewrite <- IHd; f_equal; lia. Qed.
Lemma value_of d : value 0 d = Z.of_N (Pos.of_uint d).
Proof. induction d; cbn [value Pos.of_uint]; try reflexivity; try exact IHd; change (0 * 10)%Z with 0%Z; cbn [Z.add]; rewrite value_acc; reflexivity. Qed.
Lemma digits_every d : every isDigit (NilEmpty.string_of_uint d) = true.
Proof. induction d; cbn; auto. Qed.
Lemma digits_underscores hex saw d : underscores hex saw (NilEmpty.string_of_uint d) = true.
Proof. revert saw. induction d; intros saw; cbn; auto. Qed.
Lemma to_uint_head p d : Pos.to_uint p <> D0 d.
Proof.
  intros E. pose proof (Unsigned.of_to p) as O. pose proof (Unsigned.to_of (Pos.to_uint p)) as U. rewrite O in U. cbn [N.to_uint] in U. rewrite E in *. unfold unorm in U.
  destruct (nzhead (D0 d)) eqn:NZ; try discriminate U; [|eapply nzhead_nonzero; exact NZ]. injection U as ->. discriminate O.
Qed.
Lemma positive_text p : exists d, NilZero.string_of_uint (Pos.to_uint p) = NilEmpty.string_of_uint d /\ (forall e, d <> D0 e) /\ d <> Nil /\ value 0 d = Zpos p.
Proof.
  exists (Pos.to_uint p). assert (NN : Pos.to_uint p <> Nil) by (intros E; pose proof (Unsigned.of_to p) as O; rewrite E in O; discriminate O).
  split; [unfold NilZero.string_of_uint; destruct (Pos.to_uint p); [congruence|reflexivity..]|]. split; [apply to_uint_head|]. split; [exact NN|]. rewrite value_of, Unsigned.of_to. reflexivity.
Qed.
Lemma parseUint_positive d : (forall e, d <> D0 e) -> d <> Nil -> parseUint (NilEmpty.string_of_uint d) = Some (value 0 d).
Proof.
  intros H0 HN. destruct d as [|e|e|e|e|e|e|e|e|e|e]; [congruence|destruct (H0 e eq_refl)|..]; unfold parseUint;
  match goal with |- context[NilEmpty.string_of_uint ?x] => rewrite <- (digits_uint x 0); pose proof (digits_underscores false false x) as U end;
  cbn [NilEmpty.string_of_uint] in *; rewrite U; reflexivity.
Qed.
Lemma parse_decimal z : parseInt (decimal z) = if ((minInt64 <=? z) && (z <? - minInt64))%Z then Some z else None.
Proof.
  unfold decimal. destruct z as [|p|p]; [reflexivity| |]; destruct (positive_text p) as (d & E & H0 & HN & V); cbn [Z.to_int NilZero.string_of_int]; rewrite E.
  - assert (EP : parseInt (NilEmpty.string_of_uint d) = match parseUint (NilEmpty.string_of_uint d) with Some n => if ((minInt64 <=? n) && (n <? - minInt64))%Z then Some n else None | None => None end)
      by (destruct d as [|e|e|e|e|e|e|e|e|e|e]; try congruence; reflexivity).
    rewrite EP, parseUint_positive, V by assumption. reflexivity.
  - unfold parseInt. rewrite parseUint_positive, V by assumption. reflexivity.
Qed.

(** *** blanks *)
Lemma trimLeft_blanks b s : blanks b -> trimLeft (b ++ s)%string = trimLeft s.
Proof. unfold blanks. induction b as [|c b IH]; cbn; intros H; [reflexivity|]. apply andb_true_iff in H as [-> H]. auto. Qed.
Lemma trimRight_blanks b : blanks b -> trimRight b = "".
Proof. unfold blanks. induction b as [|c b IH]; cbn; intros H; [reflexivity|]. apply andb_true_iff in H as [H1 H]. rewrite IH by exact H. rewrite H1. reflexivity. Qed.
Lemma trim_around s b1 b2 : every (fun c => negb (isBlank c)) s = true -> blanks b1 -> blanks b2 -> trim (b1 ++ s ++ b2)%string = s.
Proof.
  intros HS H1 H2. unfold trim. rewrite trimLeft_blanks by exact H1.
  assert (R : trimRight (s ++ b2)%string = s).
  { revert HS. induction s as [|c s IH]; cbn; intros HS; [apply trimRight_blanks; exact H2|]. apply andb_true_iff in HS as [HC HS]. rewrite IH by exact HS. destruct s; [|reflexivity]. rewrite negb_true_iff in HC. rewrite HC. reflexivity. }
  destruct s as [|c s].
  - cbn. assert (E : trimLeft b2 = "") by (clear R; revert H2; unfold blanks; induction b2 as [|c b2 IH]; cbn; intros H; [reflexivity|]; apply andb_true_iff in H as [-> H]; auto). rewrite E. reflexivity.
  - cbn [append trimLeft]. cbn in HS. apply andb_true_iff in HS as [HC _]. rewrite negb_true_iff in HC. rewrite HC. exact R.
Qed.
Lemma every_app P s t : every P (s ++ t)%string = every P s && every P t.
Proof. induction s; cbn; [reflexivity|]. rewrite IHs. apply andb_assoc. Qed.
Lemma every_impl (P Q : ascii -> bool) s : (forall c, P c = true -> Q c = true) -> every P s = true -> every Q s = true.
Proof. intros H. induction s; cbn; [auto|]. rewrite !andb_true_iff. intros [A B]. auto. Qed.
Definition inDecimal (c : ascii) : bool := isDigit c || Ascii.eqb c "-".
Lemma decimal_chars z : every inDecimal (decimal z) = true.
Proof.
  assert (D : forall d, every inDecimal (NilEmpty.string_of_uint d) = true) by (intros d; eapply every_impl; [|apply digits_every]; unfold inDecimal; intros c ->; reflexivity).
  unfold decimal. destruct z as [|p|p]; [reflexivity| |]; destruct (positive_text p) as (d & E & _); cbn [Z.to_int NilZero.string_of_int]; rewrite E; [apply D|]. cbn [every]. rewrite D. reflexivity.
Qed.
Lemma inDecimal_notBlank c : inDecimal c = true -> negb (isBlank c) = true.
Proof. destruct c as [[] [] [] [] [] [] [] []]; vm_compute; intros E; try reflexivity; discriminate E. Qed.

(** An integer in decimal, with blanks around it, is read as that integer if it fits into 64 bits; otherwise it is refused. *)
Theorem C86_int_text h a key z b1 b2 : blanks b1 -> blanks b2 -> Get h a key = Some (VStr (b1 ++ decimal z ++ b2)) ->
  (int64 z -> GetInt h a key = Some z) /\ (~ int64 z -> GetInt h a key = None).
Proof.
  intros B1 B2 E. unfold GetInt. rewrite E. unfold ToInt64. rewrite trim_around; [|eapply every_impl; [exact inDecimal_notBlank|apply decimal_chars]|assumption|assumption].
  rewrite parse_decimal. unfold int64, minInt64. destruct (Z.leb_spec (- 2 ^ 63) z), (Z.ltb_spec z (- - 2 ^ 63)); cbn [andb]; split; intros H1; try reflexivity; lia.
Qed.
Print Assumptions C86_int_text.
Example C86_int_text_example : let h := mkHeap 1 (fun _ => [("n", VStr "  -42 ")]) in Get h 0 "n" = Some (VStr ("  " ++ decimal (-42) ++ " ")) /\ GetInt h 0 "n" = Some (-42)%Z /\
  blanks "  " /\ ToInt64 (VStr (decimal (2 ^ 63 - 1))) = Some (2 ^ 63 - 1)%Z /\ ToInt64 (VStr (decimal (2 ^ 63))) = None.
Proof. repeat split. Qed.

(** *** texts that are split *)
Lemma split_free c d w rest : avoids c w -> splitAt (String c d) (w ++ rest)%string 0 = match splitAt (String c d) rest 0 with [] => [w] | x :: xs => (w ++ x)%string :: xs end.
Proof.
  assert (NE : forall s k, splitAt (String c d) s k <> []).
  { induction s as [|e s IH]; intros k; [discriminate|]. cbn [splitAt]. destruct k; [|apply IH]. destruct (String.prefix _ _); [discriminate|]. destruct (splitAt _ s 0) eqn:E; [apply IH in E; destruct E|discriminate]. }
  unfold avoids. induction w as [|e w IH]; cbn [append every]; intros H.
  - destruct (splitAt (String c d) rest 0) eqn:E; [apply NE in E; destruct E|reflexivity].
  - apply andb_true_iff in H as [H1 H2]. cbn [splitAt]. assert (P : String.prefix (String c d) (String e (w ++ rest)) = false).
    { cbn [String.prefix]. destruct (ascii_dec c e) as [->|]; [rewrite Ascii.eqb_refl in H1; discriminate|reflexivity]. }
    rewrite P, IH by exact H2. destruct (splitAt (String c d) rest 0) eqn:E; [apply NE in E; destruct E|reflexivity].
Qed.
Lemma split_skip delim d rest : splitAt delim (d ++ rest)%string (String.length d) = splitAt delim rest 0.
Proof. induction d as [|c d IH]; [destruct rest; reflexivity|]. cbn. exact IH. Qed.
Lemma prefix_app d rest : String.prefix d (d ++ rest) = true.
Proof. induction d as [|c d IH]; cbn; [destruct rest; reflexivity|]. destruct (ascii_dec c c); [exact IH|congruence]. Qed.
Lemma split_delim c d rest : splitAt (String c d) (String c d ++ rest)%string 0 = "" :: splitAt (String c d) rest 0.
Proof. pose proof (prefix_app (String c d) rest) as P. cbn [append] in *. cbn [splitAt]. rewrite P. cbn [String.length]. rewrite Nat.sub_0_r || idtac. replace (S (String.length d) - 1) with (String.length d) by lia. rewrite split_skip. reflexivity. Qed.
Lemma append_nil s : (s ++ "")%string = s. Proof. induction s; cbn; congruence. Qed.
Lemma split_joined c d ws : ws <> [] -> Forall (avoids c) ws -> split (String c d) (joined (String c d) ws) = ws.
Proof.
  unfold split. induction ws as [|w ws IH]; intros NE F; [congruence|]. inversion F as [|? ? A F']; subst. destruct ws as [|w2 ws].
  - cbn [joined]. rewrite <- (append_nil w) at 1. rewrite split_free by exact A. cbn [splitAt]. rewrite append_nil. reflexivity.
  - change (joined (String c d) (w :: w2 :: ws)) with (w ++ String c d ++ joined (String c d) (w2 :: ws))%string. rewrite split_free by exact A. rewrite split_delim, append_nil, IH by (congruence || exact F'). reflexivity.
Qed.
(** A list of texts written with a delimiter between them is read back, if no text contains the first character of the delimiter ... *)
Theorem C86_text_list show h a key c d ws : ws <> [] -> Forall (avoids c) ws -> Get h a key = Some (VStr (joined (String c d) ws)) -> GetStringSliceSplit show h a key (String c d) = Some ws.
Proof. intros NE F E. unfold GetStringSliceSplit. rewrite E, split_joined by assumption. reflexivity. Qed.
Print Assumptions C86_text_list.
(** ... and so is a list of integers, with any blanks around them. *)
Definition written (z : Z) (w : string) : Prop := exists b1 b2, blanks b1 /\ blanks b2 /\ w = (b1 ++ decimal z ++ b2)%string.
Lemma written_int z w : int64 z -> written z w -> ToInt64 (VStr w) = Some z.
Proof.
  intros F (b1 & b2 & B1 & B2 & ->). unfold ToInt64. rewrite trim_around; [|eapply every_impl; [exact inDecimal_notBlank|apply decimal_chars]|assumption|assumption].
  rewrite parse_decimal. unfold int64 in F. unfold minInt64. destruct (Z.leb_spec (- 2 ^ 63) z), (Z.ltb_spec z (- - 2 ^ 63)); cbn [andb]; try reflexivity; lia.
Qed.
Theorem C86_int_list h a key c d zs ws : zs <> [] -> Forall int64 zs -> Forall2 written zs ws -> inDecimal c = false -> isBlank c = false ->
  Get h a key = Some (VStr (joined (String c d) ws)) -> GetIntSliceSplit h a key (String c d) = Some zs.
Proof.
  intros NE F W HC HB E. unfold GetIntSliceSplit. rewrite E, split_joined.
  - clear E NE. induction W as [|z w zs ws Hw W IH]; [reflexivity|]. inversion F; subst. cbn [all]. rewrite (written_int z w) by assumption. rewrite IH by assumption. reflexivity.
  - inversion W; subst; [congruence|discriminate].
  - clear E NE F. induction W as [|z w zs ws (b1 & b2 & B1 & B2 & ->) W IH]; constructor; [|exact IH]. unfold avoids.
    assert (BL : forall b, blanks b -> every (fun e => negb (Ascii.eqb c e)) b = true) by (intros b B; eapply every_impl; [|exact B]; intros e He; apply negb_true_iff; destruct (Ascii.eqb_spec c e); [congruence|reflexivity]).
    rewrite !every_app, (BL b1 B1), (BL b2 B2), andb_true_r. cbn [andb]. eapply every_impl; [|apply decimal_chars]. intros e He. apply negb_true_iff. destruct (Ascii.eqb_spec c e); [congruence|reflexivity].
Qed.
Print Assumptions C86_int_list.
Example C86_list_example : let h := mkHeap 1 (fun _ => [("sizes", VStr "10, -20 ,7"); ("names", VStr "top--left side--")]) in
  joined "," ["10"; " -20 "; "7"] = "10, -20 ,7" /\ Forall2 written [10; -20; 7]%Z ["10"; " -20 "; "7"] /\ GetIntSliceSplit h 0 "sizes" "," = Some [10; -20; 7]%Z /\
  GetStringSliceSplit (fun _ => "") h 0 "names" "--" = Some ["top"; "left side"; ""] /\ joined "--" ["top"; "left side"; ""] = "top--left side--" /\ Forall (avoids "-") ["top"; "left side"; ""].
Proof.
  split; [reflexivity|]. split; [|split; [reflexivity|split; [reflexivity|split; [reflexivity|]]]].
  - apply Forall2_cons; [exists "", ""; repeat split|]. apply Forall2_cons; [exists " ", " "; repeat split|]. apply Forall2_cons; [exists "", ""; repeat split|constructor].
  - apply Forall_cons; [reflexivity|]. apply Forall_cons; [reflexivity|]. apply Forall_cons; [reflexivity|constructor].
Qed.

(** *** adding to lists *)
(** what a key holds as a list: nothing counts as the empty list *)
Definition holdsList (h : heap) (a : nat) (key : string) (l : list val) : Prop := Get h a key = Some (VSlice l) \/ Get h a key = None /\ l = [].
Lemma AddToSlice_get h a key l items : holdsList h a key l -> Get (AddToSlice h a key items) a key = Some (VSlice (l ++ items)).
Proof.
  unfold AddToSlice, PutIfAbsent. intros [E|[E ->]]; rewrite E; cbn [fst].
  - rewrite E. apply C27_plain.
  - rewrite (proj1 (C27_plain h a key (VSlice []))). apply C27_plain.
Qed.
Lemma AddToSlice_others h a key items k : dotFree k = true -> k <> key -> Get (AddToSlice h a key items) a k = Get h a k.
Proof.
  intros D NE. unfold AddToSlice. assert (G : forall v, Get (fst (PutIfAbsent h a key v)) a k = Get h a k) by (intros v; unfold PutIfAbsent; destruct (Get h a key); [reflexivity|apply C27_plain; assumption]).
  destruct (Get (fst _) a key) as [[]|]; try apply G. rewrite (proj2 (C27_plain _ a key _) k D NE). apply G.
Qed.
(** Items are added to a list in order, call after call, and other keys are not touched. *)
Theorem C86_add h a key l items more : holdsList h a key l ->
  let h' := fold_left (fun h is => AddToSlice h a key is) (items :: more) h in
  Get h' a key = Some (VSlice (l ++ items ++ concat more)) /\ forall k, dotFree k = true -> k <> key -> Get h' a k = Get h a k.
Proof.
  revert h l items. induction more as [|is more IH]; intros h l items H h'; subst h'.
  - cbn [fold_left concat]. rewrite List.app_nil_r. split; [apply AddToSlice_get; exact H|]. intros k. apply AddToSlice_others.
  - destruct (IH (AddToSlice h a key items) (l ++ items) is) as [G O]; [left; apply AddToSlice_get; exact H|]. cbn [concat]. split.
    + change (fold_left (fun h is => AddToSlice h a key is) (items :: is :: more) h) with (fold_left (fun h is => AddToSlice h a key is) (is :: more) (AddToSlice h a key items)). rewrite G. do 2 f_equal. rewrite <- List.app_assoc. reflexivity.
    + intros k D NE. rewrite <- (AddToSlice_others h a key items k D NE). apply O; assumption.
Qed.
Print Assumptions C86_add.
Lemma all_map {A B} (f : A -> option B) (g : B -> A) l : (forall x, In x l -> f (g x) = Some x) -> all f (map g l) = Some l.
Proof. induction l as [|x l IH]; cbn; intros H; [reflexivity|]. rewrite H, IH by auto. reflexivity. Qed.
(** Integers and texts added to a list are read back as such. *)
Theorem C86_add_read show h a key zs ws : holdsList h a key [] -> Forall int64 zs ->
  GetIntSlice (AddToSlice h a key (map VInt zs)) a key = Some zs /\ GetStringSlice show (AddToSlice h a key (map VStr ws)) a key = Some ws.
Proof.
  intros H F. unfold GetIntSlice, GetStringSlice. rewrite !(AddToSlice_get h a key [] _ H). cbn [List.app]. split.
  - apply all_map. intros z I. rewrite Forall_forall in F. specialize (F z I). unfold int64 in F. cbn [ToInt64]. f_equal. unfold wrap64, minInt64. rewrite Z.mod_small by lia. lia.
  - rewrite map_map. cbn [ToText]. rewrite map_id. reflexivity.
Qed.
Print Assumptions C86_add_read.
(** A list is all or nothing: it is read as integers exactly if each item is one. *)
Theorem C86_all h a key l zs : Get h a key = Some (VSlice l) -> GetIntSlice h a key = Some zs <-> Forall2 (fun v z => ToInt64 v = Some z) l zs.
Proof.
  intros E. unfold GetIntSlice. rewrite E. clear E. revert zs. induction l as [|v l IH]; intros zs; cbn [all].
  - split; [intros H; injection H as <-; constructor|intros H; inversion H; reflexivity].
  - split.
    + destruct (ToInt64 v) as [z|] eqn:V; [|discriminate]. destruct (all ToInt64 l) as [ys|] eqn:A; [|discriminate]. intros H. injection H as <-. constructor; [exact V|]. apply IH. reflexivity.
    + intros H. inversion H as [|? z ? ys V A]; subst. rewrite V. apply IH in A. rewrite A. reflexivity.
Qed.
(** With dots the list deep in the map is extended, and nothing else changes. *)
Theorem C86_add_dots h a key l items : nested h a -> dotFree key = true \/ lookup key (hcell h a) = None -> Get h a key = Some (VSlice l) ->
  let h' := AddToSliceWithDot h a key items in
  Get h' a key = Some (VSlice (l ++ items)) /\ forall key2, ~ DynProofs.prefix (splitDots key2) (splitDots key) -> ~ DynProofs.prefix (splitDots key) (splitDots key2) -> Get h' a key2 = Get h a key2.
Proof.
  intros N K G h'. subst h'. unfold AddToSliceWithDot, PutIfAbsentWithDot. rewrite G. cbn [fst]. rewrite G.
  destruct (PutWithDot h a key (VSlice (l ++ items))) as [h2| | |] eqn:E.
  - split; [eapply C27_put_get; eassumption|]. intros key2 P1 P2. eapply C27_put_others; eassumption.
  - exfalso. destruct (C27_put_fails h a key (VSlice (l ++ items)) N) as [[F _] _]. apply F in E as (p & q & w & EK & NQ & R & NM).
    assert (W : exists v, reads h a (splitDots key) v).
    { unfold Get in G. destruct (lookup key (hcell h a)) eqn:L.
      - destruct K as [D|D]; [|congruence]. apply splitDots_free in D. rewrite D. eexists. constructor. exact L.
      - destruct (splitDots key) as [|k1 [|k2 ks]] eqn:S; [destruct (splitDots_nonempty key S)|discriminate|]. eexists. eapply walk_reads; [apply nested_noStr; exact N|exact G]. }
    destruct W as [v W]. rewrite EK in W. destruct q as [|k t]; [congruence|]. assert (NP : p <> []) by (intros ->; destruct (reads_nil _ _ _ R)). destruct (reads_through _ _ _ _ _ _ NP W) as [b Rb]. apply (NM b). eapply reads_fun; eassumption.
  - exfalso. destruct (C27_put_fails h a key (VSlice (l ++ items)) N) as [_ [F|[h2 F]]]; congruence.
  - exfalso. destruct (C27_put_fails h a key (VSlice (l ++ items)) N) as [_ [F|[h2 F]]]; congruence.
Qed.
Print Assumptions C86_add_dots.
(** If there is nothing yet and a list can be put there, it is made. *)
Theorem C86_add_dots_new h a key items h1 : nested h a -> dotFree key = true \/ lookup key (hcell h a) = None -> Get h a key = None -> PutWithDot h a key (VSlice []) = Ok h1 ->
  let h' := AddToSliceWithDot h a key items in
  Get h' a key = Some (VSlice items) /\ forall key2, ~ DynProofs.prefix (splitDots key2) (splitDots key) -> ~ DynProofs.prefix (splitDots key) (splitDots key2) -> Get h' a key2 = Get h a key2.
Proof.
  intros N K G E h'. pose proof (C27_put_get _ _ _ _ _ N K E) as G1.
  assert (N1 : nested h1 a).
  { unfold PutWithDot in E. destruct (splitDots key) as [|k1 [|k2 ks]] eqn:S; [destruct (splitDots_nonempty key S)| |].
    - injection E as <-. apply replace_leaf; [exact N|intros b; discriminate|intros l; discriminate].
    - eapply putDots_nested in E; [apply E|discriminate|intros b; discriminate|intros l; discriminate|exact N]. }
  assert (K1 : dotFree key = true \/ lookup key (hcell h1 a) = None).
  { destruct (dotFree key) eqn:D; [left; reflexivity|right]. destruct K as [K|K]; [discriminate|]. pose proof (PutWithDot_ok _ _ _ _ _ N E) as [_ _ _ _ RT]. rewrite RT; [exact K|].
    intros X. assert (S : splitDots key = [key]); [|apply splitDots_free in S; congruence]. destruct (splitDots key) as [|k ks] eqn:S; [discriminate X|]. cbn in X. injection X as <-. exfalso.
    assert (FK : dotFree key = true); [|congruence]. pose proof (splitDots_parts key) as P. rewrite S in P. inversion P; assumption. }
  assert (EH : h' = AddToSliceWithDot h1 a key items).
  { subst h'. unfold AddToSliceWithDot, PutIfAbsentWithDot. rewrite G, G1, E. cbn [fst]. rewrite G1. reflexivity. }
  destruct (C86_add_dots h1 a key [] items N1 K1 G1) as [A B]. rewrite EH. split; [exact A|]. intros key2 P1 P2. rewrite (B key2 P1 P2). eapply C27_put_others; eassumption.
Qed.
Print Assumptions C86_add_dots_new.
(** PutAll of a map: its values, and the old ones under the other keys. *)
Theorem C86_put_all h a v l : entries h v = Some l -> NoDup (map fst l) -> exists h', PutAll h a v = (h', true) /\
  (forall k, lookup k (hcell h' a) = match lookup k l with Some w => Some w | None => lookup k (hcell h a) end) /\ forall c, c <> a -> hcell h' c = hcell h c.
Proof.
  intros E ND. unfold PutAll. rewrite E. eexists. split; [reflexivity|]. clear E. revert h. induction l as [|[k0 w] l IH]; intros h; cbn [fold_left lookup fst snd]; [auto|].
  cbn [map fst] in ND. apply NoDup_cons_iff in ND as [NI ND]. destruct (IH ND (Put h a k0 w)) as [A B]. split.
  - intros k. rewrite A. unfold Put. rewrite store_same. destruct (String.eqb_spec k k0) as [->|NE].
    + assert (LN : lookup k0 l = None) by (destruct (lookup k0 l) eqn:L; [|reflexivity]; exfalso; apply NI; clear -L; induction l as [|[k v] l IH]; cbn in *; [discriminate|]; destruct (String.eqb_spec k0 k); [left; congruence|right; auto]).
      rewrite LN. apply lookup_set_same.
    + rewrite lookup_set_other by congruence. reflexivity.
  - intros c C. rewrite B by exact C. unfold Put. apply store_other. congruence.
Qed.
Print Assumptions C86_put_all.
Definition shelf : heap := mkHeap 2 (fun a => match a with 0 => [("sizes", VMap 1); ("name", VStr "box"); ("ids", VSlice [VInt 4])] | 1 => [("list", VSlice [VInt 1])] | _ => [] end).
Example C86_add_example : holdsList shelf 0 "ids" [VInt 4] /\ holdsList shelf 0 "new" [] /\
  Get (AddToSlice (AddToSlice shelf 0 "ids" [VInt 5; VStr "6"]) 0 "ids" [VStr "x7"]) 0 "ids" = Some (VSlice [VInt 4; VInt 5; VStr "6"; VStr "x7"]) /\
  GetIntSlice (AddToSlice shelf 0 "ids" [VInt 5; VStr "6"]) 0 "ids" = Some [4; 5; 6]%Z /\ GetIntSlice (AddToSlice shelf 0 "ids" [VStr "x7"]) 0 "ids" = None /\
  Get (AddToSliceWithDot shelf 0 "sizes.list" [VInt 2]) 0 "sizes.list" = Some (VSlice [VInt 1; VInt 2]) /\ lookup "sizes.list" (hcell shelf 0) = None /\
  Get shelf 0 "sizes.more.deep" = None /\ Get (AddToSliceWithDot shelf 0 "sizes.more.deep" [VInt 2]) 0 "sizes.more.deep" = Some (VSlice [VInt 2]) /\
  lookup "list" (hcell (fst (PutAll shelf 0 (VMap 1))) 0) = Some (VSlice [VInt 1]).
Proof. repeat split; try (left; reflexivity). right. split; reflexivity. Qed.
Example shelf_nested : nested shelf 0.
Proof.
  assert (RD : forall p v, reads shelf 0 p v -> p = ["sizes"] /\ v = VMap 1 \/ p = ["name"] /\ v = VStr "box" \/ p = ["ids"] /\ v = VSlice [VInt 4] \/ p = ["sizes"; "list"] /\ v = VSlice [VInt 1]).
  { intros p v R. destruct p as [|k [|k2 r]]; [destruct (reads_nil _ _ _ R)| |].
    - apply reads_one in R. cbn in R. destruct (String.eqb_spec k "sizes"); [injection R as <-; subst; auto|]. destruct (String.eqb_spec k "name"); [injection R as <-; subst; auto|]. destruct (String.eqb_spec k "ids"); [injection R as <-; subst; auto|discriminate].
    - apply reads_cons in R as (b & L & R). cbn in L. destruct (String.eqb_spec k "sizes"); [|destruct (String.eqb_spec k "name"); [discriminate|destruct (String.eqb_spec k "ids"); discriminate]]. injection L as <-. subst k.
      destruct r as [|k3 r]; [|apply reads_cons in R as (b & L & _); cbn in L; destruct (String.eqb_spec k2 "list"); discriminate]. apply reads_one in R. cbn in R. destruct (String.eqb_spec k2 "list"); [injection R as <-; subst; auto|discriminate]. }
  assert (RE : forall p b, reach shelf 0 p b -> p = [] /\ b = 0 \/ p = ["sizes"] /\ b = 1).
  { intros p b [H|H]; [left; exact H|]. apply RD in H as [[-> H]|[[-> H]|[[-> H]|[-> H]]]]; try discriminate. injection H as ->. auto. }
  constructor.
  - intros p q b R1 R2. apply RE in R1 as [[-> ->]|[-> ->]], R2 as [[-> R2]|[-> R2]]; congruence.
  - intros p b R. apply RE in R as [[_ ->]|[_ ->]]; cbn; lia.
  - intros p l R. apply RD in R as [[_ H]|[[_ H]|[[_ H]|[_ H]]]]; discriminate.
Qed.

(** *** findings *)
(** A text is read by two rules: a number with a leading zero is octal as an integer and decimal as a float, and a float is no integer although its text is.  The sheet "010" of a
    design is sheet 8. *)
Definition asFloat (s : string) : option spec_float := @ToFloat FNum (fun z => binary_normalize 53 1024 z 0 false) (fun x => x) (VStr s).
Definition whole (z : Z) : option spec_float := Some (binary_normalize 53 1024 z 0 false).
Theorem C86_octal_refuted : ToInt64 (VStr "010") = Some 8%Z /\ asFloat "010" = whole 10 /\ ToInt64 (VStr "08") = None /\ asFloat "08" = whole 8 /\ ToInt64 (VStr "2.0") = None /\ asFloat "2.0" = whole 2.
Proof. repeat split; vm_compute; reflexivity. Qed.
(** An integer out of range is refused as a text, but as a number it becomes another integer. *)
Theorem C86_wraps_refuted : ToInt64 (VStr (decimal (2 ^ 63))) = None /\ ToInt64 (VInt (2 ^ 63)) = Some (- 2 ^ 63)%Z /\ ToInt64 (VFloat (binary_normalize 53 1024 (2 ^ 63) 0 false)) = Some (- 2 ^ 63)%Z.
Proof. repeat split; vm_compute; reflexivity. Qed.
(** The empty list is not read back: it is one empty text, and no list of integers. *)
Theorem C86_empty_refuted show h a key delim : Get h a key = Some (VStr (joined delim [])) -> GetStringSliceSplit show h a key delim = Some [""] /\ GetIntSliceSplit h a key delim = None.
Proof. intros E. unfold GetStringSliceSplit, GetIntSliceSplit. rewrite E. split; reflexivity. Qed.
(** Adding to what is not a list does nothing and says so to nobody; so does adding below a text. *)
Theorem C86_dropped_refuted h a key v items : Get h a key = Some v -> (forall l, v <> VSlice l) -> AddToSlice h a key items = h /\ AddToSliceWithDot h a key items = h.
Proof. intros E NL. unfold AddToSlice, AddToSliceWithDot, PutIfAbsent, PutIfAbsentWithDot. rewrite E. cbn [fst]. rewrite E. destruct v; try (split; reflexivity). destruct (NL l eq_refl). Qed.
Theorem C86_below_refuted : AddToSliceWithDot shelf 0 "name.parts" [VInt 1] = shelf.
Proof. reflexivity. Qed.
(** AddToSlice finds the list by a dotted key but writes a new entry: the list in the map is as before, and the new entry hides it. *)
Theorem C86_hidden_refuted : let h := AddToSlice shelf 0 "sizes.list" [VInt 2] in
  Get h 0 "sizes.list" = Some (VSlice [VInt 1; VInt 2]) /\ lookup "list" (hcell h 1) = Some (VSlice [VInt 1]) /\ Get (AddToSliceWithDot h 0 "sizes.list" [VInt 3]) 0 "sizes.list" = Some (VSlice [VInt 1; VInt 2]).
Proof. repeat split. Qed.
Print Assumptions C86_hidden_refuted.
