(** C82: importing an SVG file. *)
From Coq Require Import String Ascii List ZArith Bool Lia.
From Verif Require Import Num FloatNum PathModel DynModel XmlSpec SvgElement SvgDecode Witness.
Import ListNotations.
Local Open Scope string_scope.
Local Open Scope list_scope.
Notation xnode := XmlSpec.node.
Notation XE := XmlSpec.Elem.
Notation XT := XmlSpec.Text.

(** *** The tokens of a document.  The document is a tree as in XmlSpec.v. *)
(** the name without its prefix *)
Fixpoint afterColon (s : string) : option string := match s with "" => None | String c r => if Ascii.eqb c ":" then Some r else afterColon r end.
Definition local (s : string) : string := match afterColon s with Some r => r | None => s end.
Definition white (c : ascii) : bool := existsb (Ascii.eqb c) [" "; "009"; "010"; "011"; "012"; "013"]%char.
Definition blankText (s : string) : Prop := every white s = true.
Definition sameAttr (kv : string * string) (t : (string * string) * string) : Prop := snd (fst t) = local (fst kv) /\ snd t = snd kv.
(** the tokens inside an element: those of the children, with blanks, comments and the like between them *)
Inductive inside : list xnode -> list token -> Prop :=
| in_nil : inside [] []
| in_blank s ks ts : blankText s -> inside ks ts -> inside ks (TChars s :: ts)
| in_other ks ts : inside ks ts -> inside ks (TOther :: ts)
| in_text s ks ts : ~ blankText s -> inside ks ts -> inside (XT s :: ks) (TChars s :: ts)
| in_elem n a cs sp ats cts ks ts : Forall2 sameAttr a ats -> inside cs cts -> inside ks ts -> inside (XE n a cs :: ks) (TStart (sp, local n) ats :: cts ++ TEnd (sp, local n) :: ts).
Definition notStart (t : token) : Prop := forall n a, t <> TStart n a.
(** a whole file; what follows the document is not looked at, so it can be anything *)
Inductive file (x : xnode) : list token -> Prop :=
| file_of pre n a cs sp ats cts post : x = XE n a cs -> Forall notStart pre -> Forall2 sameAttr a ats -> inside cs cts ->
    file x (pre ++ TStart (sp, local n) ats :: cts ++ TEnd (sp, local n) :: post).

(** *** What it is read as: local names, for every attribute the last value given, the elements in their order and the last text. *)
Definition elements (ks : list xnode) : list xnode := filter (fun k => match k with XmlSpec.Elem _ _ _ => true | XmlSpec.Text _ => false end) ks.
Definition lastText (ks : list xnode) : string := fold_left (fun t k => match k with XmlSpec.Text s => s | XmlSpec.Elem _ _ _ => t end) ks "".
Definition lastValue (k : string) (a : list (string * string)) : option string := fold_left (fun v kv => if String.eqb (local (fst kv)) k then Some (snd kv) else v) a None.
Inductive readsAs : xnode -> xelem -> Prop :=
| reads_as n a ks a' ks' : (forall k, attrOf k a' = lastValue k a) -> Forall2 readsAs (elements ks) ks' -> readsAs (XE n a ks) (XElem (local n) a' ks' (lastText ks)).

Lemma trim_blank s : trim s = "" <-> blankText s.
Proof.
  unfold trim, blankText. assert (W : forall c, isBlank c = white c). { intros c. unfold isBlank, isSpace, white. cbn [existsb]. rewrite orb_false_r. destruct (Ascii.eqb c " "), (Ascii.eqb c "009"), (Ascii.eqb c "010"), (Ascii.eqb c "011"), (Ascii.eqb c "012"), (Ascii.eqb c "013"); reflexivity. }
  assert (R : forall s, trimRight s = "" <-> every white s = true).
  { clear s. induction s as [|c r IH]; [split; reflexivity|]. cbn [trimRight every]. rewrite W. destruct (trimRight r) as [|d t].
    - rewrite (proj1 IH eq_refl), andb_true_r. destruct (white c); split; auto; discriminate.
    - split; [discriminate|]. intros H. apply andb_prop in H as [_ H]. apply IH in H. discriminate. }
  induction s as [|c r IH]; [split; reflexivity|]. cbn [trimLeft every]. rewrite W. destruct (white c) eqn:E; [exact IH|]. rewrite R. cbn [every]. rewrite E. reflexivity.
Qed.
Lemma lookup_attr k l : lookup k l = attrOf k l.
Proof. induction l as [|[k' v] r IH]; [reflexivity|]. cbn [lookup attrOf]. rewrite IH. reflexivity. Qed.
Lemma attr_set k k' v l : attrOf k (set k' v l) = if String.eqb k' k then Some v else attrOf k l.
Proof.
  induction l as [|[k2 v2] r IH]; cbn [set attrOf]; [rewrite String.eqb_sym; reflexivity|]. destruct (String.eqb_spec k' k2) as [->|NE]; cbn [attrOf].
  - rewrite (String.eqb_sym k k2). destruct (String.eqb k2 k); reflexivity.
  - rewrite IH. destruct (String.eqb_spec k k2) as [->|]; [|reflexivity]. apply String.eqb_neq in NE. rewrite NE. reflexivity.
Qed.
Lemma NewElement_attrs a ats : Forall2 sameAttr a ats -> forall k, attrOf k (fold_left (fun m t => set (snd (fst t)) (snd t) m) ats []) = lastValue k a.
Proof.
  intros F k. unfold lastValue. assert (G : forall m v, attrOf k m = v -> attrOf k (fold_left (fun m (t : string * string * string) => set (snd (fst t)) (snd t) m) ats m) = fold_left (fun v kv => if String.eqb (local (fst kv)) k then Some (snd kv) else v) a v); [|apply G; reflexivity].
  induction F as [|kv t a ats [E1 E2] F IH]; intros m v H; [exact H|]. cbn [fold_left]. apply IH. rewrite attr_set, E1, E2, H. reflexivity.
Qed.
Lemma Decode_inside ks ts : inside ks ts -> forall fuel name attrs acc c sp rest broken, (List.length ts < fuel)%nat ->
  exists ks', Decode fuel (XElem name attrs acc c) (ts ++ TEnd (sp, name) :: rest) broken =
    Ok (XElem name attrs (acc ++ ks') (fold_left (fun t k => match k with XmlSpec.Text s => s | XmlSpec.Elem _ _ _ => t end) ks c), rest) /\ Forall2 readsAs (elements ks) ks'.
Proof.
  induction 1 as [|s ks ts B I IH|ks ts I IH|s ks ts B I IH|n a cs sp' ats cts ks ts SA I1 IH1 I2 IH2]; intros fuel name attrs acc c sp rest broken L; (destruct fuel as [|f]; [cbn in L; lia|]); cbn [List.length] in L.
  - exists []. split; [|constructor]. cbn [app Decode fold_left snd]. rewrite String.eqb_refl, app_nil_r. reflexivity.
  - cbn [app Decode]. apply trim_blank in B. rewrite B. cbn [String.eqb]. apply IH. lia.
  - cbn [app Decode]. apply IH. lia.
  - cbn [app Decode]. destruct (String.eqb_spec (trim s) "") as [E|E]; [apply trim_blank in E; contradiction|]. destruct (IH f name attrs acc s sp rest broken) as (ks' & E1 & F); [lia|]. exists ks'. split; [|exact F]. rewrite E1. reflexivity.
  - rewrite app_length in L. cbn [List.length] in L. cbn [app Decode]. rewrite <- app_assoc. cbn [app]. unfold NewElement. cbn [snd].
    destruct (IH1 f (local n) (fold_left (fun m t => set (snd (fst t)) (snd t) m) ats []) [] "" sp' (ts ++ TEnd (sp, name) :: rest) broken) as (cs' & E1 & F1); [lia|]. rewrite E1. cbn [bind fst snd app].
    destruct (IH2 f name attrs (acc ++ [XElem (local n) (fold_left (fun m t => set (snd (fst t)) (snd t) m) ats []) cs' (lastText cs)]) c sp rest broken) as (ks' & E2 & F2); [lia|].
    exists (XElem (local n) (fold_left (fun m t => set (snd (fst t)) (snd t) m) ats []) cs' (lastText cs) :: ks'). split.
    + unfold lastText in E2. rewrite E2. f_equal. f_equal. f_equal; [rewrite <- app_assoc; reflexivity].
    + cbn [elements filter]. constructor; [|exact F2]. constructor; [|exact F1]. apply NewElement_attrs, SA.
Qed.

(** Every file is read as its document, however deep it is and whatever is between the elements, before and after the document. *)
Theorem C82_tree x ts broken : file x ts -> exists e, Parse (ts, broken) = Ok (Some e) /\ readsAs x e.
Proof.
  intros [pre n a cs sp ats cts post -> NS SA I]. unfold Parse. cbn [fst snd].
  assert (D : DecodeFirst (pre ++ TStart (sp, local n) ats :: cts ++ TEnd (sp, local n) :: post) broken = Ok (Some (NewElement (sp, local n) ats), cts ++ TEnd (sp, local n) :: post)).
  { induction NS as [|t pre Ht NS IH]; [reflexivity|]. cbn [app DecodeFirst]. destruct t; try exact IH. destruct (Ht n0 attrs eq_refl). }
  rewrite D. cbn [bind fst snd]. unfold NewElement. cbn [snd].
  destruct (Decode_inside cs cts I (S (List.length (cts ++ TEnd (sp, local n) :: post))) (local n) (fold_left (fun m t => set (snd (fst t)) (snd t) m) ats []) [] "" sp post broken) as (ks' & E & F); [rewrite app_length; lia|].
  rewrite E. cbn [bind fst app]. eexists. split; [reflexivity|]. constructor; [apply NewElement_attrs, SA|exact F].
Qed.
Print Assumptions C82_tree.

Fixpoint xsize (x : xnode) : nat := match x with XmlSpec.Elem _ _ ks => S (fold_right (fun k n => (xsize k + n)%nat) 0%nat ks) | XmlSpec.Text _ => 1 end.
(** *** Comparing elements *)
Inductive sameElem : xelem -> xelem -> Prop :=
| same_elem n a a' ks ks' c : (forall k, attrOf k a = attrOf k a') -> Forall2 sameElem ks ks' -> sameElem (XElem n a ks c) (XElem n a' ks' c).
(** attributes are maps: no name twice *)
Fixpoint unique (e : xelem) : Prop := match e with XElem _ a ks _ => NoDup (map fst a) /\ fold_right (fun k P => unique k /\ P) True ks end.
Fixpoint esize (e : xelem) : nat := match e with XElem _ _ ks _ => S (fold_right (fun k n => (esize k + n)%nat) 0%nat ks) end.
Lemma attr_In k v l : NoDup (map fst l) -> (attrOf k l = Some v <-> In (k, v) l).
Proof.
  induction l as [|[k2 v2] r IH]; intros ND; [split; [discriminate|intros []]|]. inversion ND as [|? ? NI ND']; subst. cbn [attrOf In]. destruct (String.eqb_spec k k2) as [->|NE].
  - split; [intros [= ->]; auto|intros [[= ->]|I]; [reflexivity|]]. exfalso. apply NI. apply in_map_iff. exists (k2, v). auto.
  - rewrite IH by auto. split; [auto|intros [[= <- <-]|I]; [congruence|exact I]].
Qed.
Lemma attrs_same a a' : NoDup (map fst a) -> NoDup (map fst a') ->
  (List.length a = List.length a' /\ forallb (fun kv => match lookup (fst kv) a' with Some w => String.eqb (snd kv) w | None => false end) a = true <-> forall k, attrOf k a = attrOf k a').
Proof.
  intros N1 N2. assert (IN : forallb (fun kv => match lookup (fst kv) a' with Some w => String.eqb (snd kv) w | None => false end) a = true <-> incl a a').
  { rewrite forallb_forall. split.
    - intros H [k v] I. apply H in I. cbn [fst snd] in I. rewrite lookup_attr in I. destruct (attrOf k a') as [w|] eqn:E; [|discriminate]. apply String.eqb_eq in I. subst w. apply attr_In; auto.
    - intros H [k v] I. apply H in I. cbn [fst snd]. apply attr_In in I; auto. rewrite lookup_attr, I. apply String.eqb_refl. }
  rewrite IN. split.
  - intros [L H] k. assert (H' : incl a' a). { apply NoDup_length_incl; [apply NoDup_map_inv in N1; exact N1|lia|exact H]. }
    destruct (attrOf k a) as [v|] eqn:E; [apply attr_In in E; auto; symmetry; apply attr_In; auto|]. destruct (attrOf k a') as [v|] eqn:E'; [|reflexivity]. apply attr_In in E'; auto. apply H' in E'. apply attr_In in E'; auto. congruence.
  - intros H. assert (I1 : incl a a') by (intros [k v] I; apply attr_In; auto; rewrite <- H; apply attr_In; auto). assert (I2 : incl a' a) by (intros [k v] I; apply attr_In; auto; rewrite H; apply attr_In; auto). split; [|exact I1].
    apply NoDup_map_inv in N1, N2. apply NoDup_incl_length in I1, I2; auto. lia.
Qed.
(** Compare tells exactly whether two elements are the same: name, text, attributes and children. *)
Theorem C82_compare e o : unique e -> unique o -> (Compare e o = true <-> sameElem e o).
Proof.
  enough (G : forall m e o, (esize e < m)%nat -> unique e -> unique o -> (Compare e o = true <-> sameElem e o)) by (apply (G (S (esize e))); lia). clear e o.
  induction m as [|m IH]; intros [n a k c] [n' a' k' c'] L [U1 U2] [V1 V2]; [lia|]. cbn [Compare].
  assert (K : (fix all (k k' : list xelem) : bool := match k, k' with x :: r, y :: r' => Compare x y && all r r' | _, _ => true end) k k' = true /\ List.length k = List.length k' <-> Forall2 sameElem k k').
  { cbn [esize] in L. clear -IH L U2 V2. revert k' L U2 V2. induction k as [|x r IHr]; intros [|y r'] L U2 V2; cbn [List.length fold_right] in *; try (split; [intros [_ H]; discriminate H|intros H; inversion H]).
    - split; [constructor|split; reflexivity].
    - rewrite andb_true_iff, IH by (lia || tauto). destruct U2 as [U2 U3], V2 as [V2 V3]. specialize (IHr r'). split.
      + intros [[H1 H2] H3]. constructor; [exact H1|]. apply (proj1 (IHr ltac:(lia) U3 V3)). split; [exact H2|lia].
      + intros H. inversion H; subst. assert (R := proj2 (IHr ltac:(lia) U3 V3) ltac:(assumption)). destruct R as [R1 R2]. split; [split; assumption|]. f_equal. exact R2. }
  pose proof (attrs_same a a' U1 V1) as A. split.
  - destruct (String.eqb_spec n n') as [->|]; [|discriminate]. destruct (String.eqb_spec c c') as [->|]; [|discriminate]. destruct (Nat.eqb_spec (List.length a) (List.length a')) as [E1|]; [|discriminate]. destruct (Nat.eqb_spec (List.length k) (List.length k')) as [E2|]; [|discriminate].
    cbn [negb orb]. intros H. apply andb_prop in H as [H1 H2]. constructor; [apply A; auto|apply K; auto].
  - intros H. inversion H as [? ? ? ? ? ? HA HK]; subst. apply A in HA as [A1 A2]. apply K in HK as [K1 K2]. rewrite !String.eqb_refl, A1, K2, !Nat.eqb_refl. cbn [negb orb]. rewrite A2. exact K1.
Qed.
Print Assumptions C82_compare.

(** *** Files that break off *)
(** everything up to some place inside the document *)
Inductive cut : list token -> Prop :=
| cut_here ks ts : inside ks ts -> cut ts
| cut_in ks ts n a more : inside ks ts -> cut more -> cut (ts ++ TStart n a :: more).
Lemma Decode_skip ks ts : inside ks ts -> forall fuel m name attrs acc c tail broken, (List.length ts + m <= fuel)%nat ->
  exists fuel' acc' c', (m <= fuel')%nat /\ Decode fuel (XElem name attrs acc c) (ts ++ tail) broken = Decode fuel' (XElem name attrs acc' c') tail broken.
Proof.
  induction 1 as [|s ks ts B I IH|ks ts I IH|s ks ts B I IH|n a cs sp' ats cts ks ts SA I1 IH1 I2 IH2]; intros fuel m name attrs acc c tail broken L; cbn [List.length] in L.
  - exists fuel, acc, c. split; [lia|reflexivity].
  - destruct fuel as [|f]; [lia|]. cbn [app Decode]. apply trim_blank in B. rewrite B. cbn [String.eqb]. apply IH. lia.
  - destruct fuel as [|f]; [lia|]. cbn [app Decode]. apply IH. lia.
  - destruct fuel as [|f]; [lia|]. cbn [app Decode]. destruct (String.eqb_spec (trim s) "") as [E|E]; [apply trim_blank in E; contradiction|]. apply IH. lia.
  - destruct fuel as [|f]; [lia|]. rewrite app_length in L. cbn [List.length] in L. cbn [app Decode]. rewrite <- app_assoc. cbn [app]. unfold NewElement. cbn [snd].
    destruct (Decode_inside cs cts I1 f (local n) (fold_left (fun m t => set (snd (fst t)) (snd t) m) ats []) [] "" sp' (ts ++ tail) broken) as (cs' & E1 & _); [lia|]. rewrite E1. cbn [bind fst snd]. apply IH2. lia.
Qed.
Lemma Decode_cut ts : cut ts -> forall fuel e, (List.length ts < fuel)%nat -> Decode fuel e ts true = Err.
Proof.
  induction 1 as [ks ts I|ks ts n a more I C IH]; intros fuel [name attrs acc c] L.
  - destruct (Decode_skip ks ts I fuel 1 name attrs acc c [] true) as (f & acc' & c' & F & E); [lia|]. rewrite app_nil_r in E. rewrite E. destruct f; [lia|reflexivity].
  - rewrite app_length in L. cbn [List.length] in L. destruct (Decode_skip ks ts I fuel (S (S (List.length more))) name attrs acc c (TStart n a :: more) true) as (f & acc' & c' & F & E); [lia|]. rewrite E.
    destruct f as [|f]; [lia|]. cbn [Decode]. unfold NewElement. rewrite IH by lia. reflexivity.
Qed.
(** A file with an error inside the document is an error for Parse, but ParseSVG does not look at it and fails with a nil pointer, which stops the program. *)
Theorem C82_broken_refuted (N : Num) pre n a ts : Forall notStart pre -> cut ts ->
  Parse (pre ++ TStart n a :: ts, true) = Err /\ @ParseSVG N (pre ++ TStart n a :: ts, true) = Panic.
Proof.
  intros NS C. assert (E : Parse (pre ++ TStart n a :: ts, true) = Err).
  { unfold Parse. cbn [fst snd]. assert (D : DecodeFirst (pre ++ TStart n a :: ts) true = Ok (Some (NewElement n a), ts)). { induction NS as [|t pre Ht NS IH]; [reflexivity|]. cbn [app DecodeFirst]. destruct t; try exact IH. destruct (Ht n0 attrs eq_refl). }
    rewrite D. cbn [bind fst snd]. rewrite Decode_cut by (exact C || lia). reflexivity. }
  split; [exact E|]. unfold ParseSVG. rewrite E. reflexivity.
Qed.
Print Assumptions C82_broken_refuted.
(** So does a file without any element. *)
Theorem C82_empty_refuted (N : Num) pre broken : Forall notStart pre -> @ParseSVG N (pre, broken) = Panic.
Proof.
  intros NS. unfold ParseSVG, Parse. cbn [fst snd]. assert (D : DecodeFirst pre broken = if broken then Err else Ok (None, [])). { induction NS as [|t pre Ht NS IH]; [reflexivity|]. cbn [DecodeFirst]. destruct t; try exact IH. destruct (Ht n attrs eq_refl). }
  rewrite D. destruct broken; reflexivity.
Qed.
Print Assumptions C82_empty_refuted.

(** *** examples *)
(** <?xml?> <svg xmlns:x=".." width="1" width="2"> <!-- --> <x:g>a<path d="M 1 1"/>b</x:g> </svg> *)
Definition exTokens : list token :=
  [TOther; TChars " "; TStart ("", "svg") [(("xmlns", "x"), ".."); (("", "width"), "1"); (("", "width"), "2")]; TChars " "; TOther;
   TStart ("..", "g") []; TChars "a"; TStart ("", "path") [(("", "d"), "M 1 1")]; TEnd ("", "path"); TChars "b"; TEnd ("..", "g"); TChars " "; TEnd ("", "svg"); TChars "rest"].
Definition exNode : xnode := XE "svg" [("xmlns:x", ".."); ("width", "1"); ("width", "2")] [XE "x:g" [] [XT "a"; XE "path" [("d", "M 1 1")] []; XT "b"]].
Ltac attrs_of := repeat (first [apply Forall2_nil | apply Forall2_cons; [split; reflexivity|]]).
Example C82_file_ex : file exNode exTokens.
Proof.
  change exTokens with ([TOther; TChars " "] ++ TStart ("", local "svg") [(("xmlns", "x"), ".."); (("", "width"), "1"); (("", "width"), "2")] :: [TChars " "; TOther;
    TStart ("..", "g") []; TChars "a"; TStart ("", "path") [(("", "d"), "M 1 1")]; TEnd ("", "path"); TChars "b"; TEnd ("..", "g"); TChars " "] ++ TEnd ("", local "svg") :: [TChars "rest"]).
  eapply file_of; [reflexivity|repeat constructor; intros ? ? [=]|attrs_of|]. apply in_blank; [reflexivity|]. apply in_other.
  change [TStart ("..", "g") []; TChars "a"; TStart ("", "path") [(("", "d"), "M 1 1")]; TEnd ("", "path"); TChars "b"; TEnd ("..", "g"); TChars " "]
    with (TStart ("..", local "x:g") [] :: [TChars "a"; TStart ("", "path") [(("", "d"), "M 1 1")]; TEnd ("", "path"); TChars "b"] ++ TEnd ("..", local "x:g") :: [TChars " "]).
  apply in_elem; [attrs_of| |apply in_blank; [reflexivity|constructor]].
  apply in_text; [intros H; discriminate H|]. change [TStart ("", "path") [(("", "d"), "M 1 1")]; TEnd ("", "path"); TChars "b"] with (TStart ("", local "path") [(("", "d"), "M 1 1")] :: [] ++ TEnd ("", local "path") :: [TChars "b"]).
  apply in_elem; [attrs_of|constructor|]. apply in_text; [intros H; discriminate H|constructor].
Qed.
Definition exRead : xelem := XElem "svg" [("x", ".."); ("width", "2")] [XElem "g" [] [XElem "path" [("d", "M 1 1")] [] ""] "b"] "".
Example C82_parse_ex : Parse (exTokens, false) = Ok (Some exRead). Proof. reflexivity. Qed.
Example C82_compare_ex : unique exRead /\ unique (XElem "svg" [("width", "2"); ("x", "..")] [] "") /\ Compare exRead exRead = true /\
  Compare (XElem "svg" [("x", ".."); ("width", "2")] [] "") (XElem "svg" [("width", "2"); ("x", "..")] [] "") = true /\ Compare exRead (XElem "svg" [("width", "2"); ("x", "..")] [] "") = false.
Proof. repeat split; repeat constructor; cbn; intuition discriminate. Qed.
(** the same file broken off in the group *)
Example C82_cut_ex : cut [TChars " "; TOther; TStart ("..", "g") []; TChars "a"].
Proof.
  change [TChars " "; TOther; TStart ("..", "g") []; TChars "a"] with ([TChars " "; TOther] ++ TStart ("..", "g") [] :: [TChars "a"]).
  eapply cut_in; [apply in_blank; [reflexivity|apply in_other; constructor]|]. eapply cut_here. apply in_text; [intros H; discriminate H|constructor].
Qed.
