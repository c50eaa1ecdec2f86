(** C89: the lists of files of a directory. *)
From Coq Require Import String Ascii List Bool Arith Lia.
From Verif Require Import Num Output Files TextProofs Prop_C78.
Import ListNotations.
Local Open Scope string_scope.

(** *** specification *)
(** a name of a file or directory *)
Definition isName (n : string) : Prop := n <> "" /\ n <> "." /\ n <> ".." /\ without "/" n.
(** a directory written plainly: names with separators between them, with or without one in front *)
Definition plainDir (d : string) : Prop := exists ns, ns <> [] /\ Forall isName ns /\ (d = joinSep ns \/ d = "/" ++ joinSep ns).
(** trees with names at all places, each entry of a directory with another name *)
Inductive named : node -> Prop :=
| named_file : named File
| named_dir es : (forall n t, In (n, t) es -> isName n /\ named t) -> NoDup (map fst es) -> named (Dir es).
(** what is at a place in a tree *)
Inductive at_ : node -> list string -> node -> Prop :=
| at_here t : at_ t [] t
| at_in es n t ns t' : In (n, t) es -> at_ t ns t' -> at_ (Dir es) (n :: ns) t'.
(** the text of a place under a directory *)
Fixpoint under (d : string) (ns : list string) : string := match ns with [] => d | n :: r => under (d ++ "/" ++ n) r end.
Definition endsIn (s suf : string) : Prop := exists a, s = a ++ suf.

(** *** texts *)
Lemma app_assoc_s (a b c : string) : (a ++ b) ++ c = a ++ b ++ c.
Proof. induction a; cbn; [|rewrite IHa]; reflexivity. Qed.
Lemma split_none n : without "/" n -> splitSep n = [n].
Proof. induction n as [|c n IH]; intros W; [reflexivity|]. apply without_cons in W. destruct W as [C W]. cbn [splitSep]. destruct (Ascii.eqb_spec c "/"); [contradiction|]. rewrite IH by auto. reflexivity. Qed.
Lemma split_cons n r : without "/" n -> splitSep (n ++ String "/" r) = n :: splitSep r.
Proof. induction n as [|c n IH]; intros W; [reflexivity|]. apply without_cons in W. destruct W as [C W]. cbn [append splitSep]. destruct (Ascii.eqb_spec c "/"); [contradiction|]. rewrite IH by auto. reflexivity. Qed.
Lemma join_cons n m r : joinSep (n :: m :: r) = n ++ String "/" (joinSep (m :: r)).
Proof. reflexivity. Qed.
Lemma split_join ns : ns <> [] -> Forall isName ns -> splitSep (joinSep ns) = ns.
Proof.
  induction ns as [|n [|m r] IH]; intros NE F; [contradiction| |].
  - inversion F as [|? ? (_ & _ & _ & W) _]; subst. cbn. apply split_none. exact W.
  - inversion F as [|? ? (_ & _ & _ & W) F']; subst. rewrite join_cons, split_cons by auto. rewrite IH; [reflexivity|discriminate|exact F'].
Qed.
Lemma clean_names b ns : Forall isName ns -> forall acc, cleanNames b acc ns = (rev acc ++ ns)%list.
Proof.
  induction 1 as [|n ns (N1 & N2 & N3 & _) F IH]; intros acc; cbn [cleanNames]; [rewrite List.app_nil_r; reflexivity|].
  destruct (String.eqb_spec n ""); [contradiction|]. destruct (String.eqb_spec n "."); [contradiction|]. cbn [orb]. destruct (String.eqb_spec n ".."); [contradiction|].
  rewrite IH. cbn [rev]. rewrite <- List.app_assoc. reflexivity.
Qed.
Lemma join_snoc ns n : ns <> [] -> joinSep (ns ++ [n])%list = joinSep ns ++ "/" ++ n.
Proof.
  induction ns as [|a [|b r] IH]; intros NE; [contradiction|reflexivity|]. cbn [List.app] in *. rewrite !join_cons, IH by discriminate. rewrite app_assoc_s. reflexivity.
Qed.
Lemma first_name ns : ns <> [] -> Forall isName ns -> exists c s, joinSep ns = String c s /\ c <> "/"%char.
Proof.
  intros NE F. destruct ns as [|n r]; [contradiction|]. inversion F as [|? ? (N1 & _ & _ & W) _]; subst. destruct n as [|c n]; [contradiction|].
  apply without_cons in W. destruct W as [C _]. destruct r as [|m r]; [exists c, n|exists c, (n ++ String "/" (joinSep (m :: r)))]; split; auto.
Qed.
Lemma clean_plain ns : ns <> [] -> Forall isName ns -> clean (joinSep ns) = joinSep ns.
Proof.
  intros NE F. destruct (first_name ns NE F) as (c & s & E & C). unfold clean. rewrite E.
  assert (X : (match cleanNames false [] (splitSep (String c s)) with [] => "." | l => joinSep l end) = String c s).
  { rewrite <- E, split_join, clean_names by auto. cbn [rev List.app]. destruct ns; [contradiction|reflexivity]. }
  destruct c as [[] [] [] [] [] [] [] []]; try exact X. destruct (C eq_refl).
Qed.
Lemma clean_rooted ns : ns <> [] -> Forall isName ns -> clean ("/" ++ joinSep ns) = "/" ++ joinSep ns.
Proof. intros NE F. unfold clean. cbn [append]. rewrite split_join, clean_names by auto. reflexivity. Qed.
Lemma join_plain d n : plainDir d -> isName n -> joinPath d n = d ++ "/" ++ n /\ plainDir (d ++ "/" ++ n).
Proof.
  intros (ns & NE & F & H) N. assert (F' : Forall isName (ns ++ [n])%list) by (apply Forall_app; split; auto).
  assert (NE' : (ns ++ [n])%list <> []) by (destruct ns; discriminate). unfold joinPath. destruct H as [-> | ->].
  - rewrite <- join_snoc by auto. split; [apply clean_plain; auto|]. exists (ns ++ [n])%list. auto.
  - change (("/" ++ joinSep ns) ++ "/" ++ n) with ("/" ++ (joinSep ns ++ "/" ++ n)). rewrite <- join_snoc by auto. split; [apply clean_rooted; auto|]. exists (ns ++ [n])%list. auto.
Qed.
Lemma under_app d ns : exists s, under d ns = d ++ s /\ (ns = [] -> s = "") /\ (forall n r, ns = n :: r -> exists x, s = String "/" x).
Proof.
  revert d. induction ns as [|n r IH]; intros d; [exists ""; rewrite app_nil_r_s; repeat split; discriminate|]. cbn [under]. destruct (IH (d ++ "/" ++ n)) as (s & -> & _).
  exists (String "/" (n ++ s)). rewrite !app_assoc_s. cbn [append]. repeat split; [discriminate|]. intros n' r' _. eauto.
Qed.

(** *** the walk *)
Lemma visits_dir p es : visits p (Dir es) = (p, true) :: flat_map (fun e => visits (joinPath p (fst e)) (snd e)) es.
Proof. cbn [visits isDirNode]. f_equal. induction es as [|[n t] r IH]; [reflexivity|]. cbn [flat_map fst snd]. rewrite <- IH. reflexivity. Qed.
Fixpoint node_size (t : node) : nat := match t with File => 0 | Dir es => S ((fix go (es : list (string * node)) := match es with [] => 0 | (_, t) :: r => S (node_size t) + go r end) es) end.
Lemma size_in n t es : In (n, t) es -> node_size t < node_size (Dir es).
Proof. intros I. cbn [node_size]. induction es as [|[m u] r IH]; [destruct I|]. destruct I as [E|I]; [injection E as -> ->; lia|]. specialize (IH I). lia. Qed.
Lemma visits_spec : forall k t d p b, node_size t < k -> plainDir d -> named t -> In (p, b) (visits d t) <-> exists ns t', at_ t ns t' /\ p = under d ns /\ b = isDirNode t'.
Proof.
  induction k as [|k IH]; intros t d p b K PD NT; [lia|]. destruct t as [|es].
  - cbn [visits]. split.
    + intros [E|[]]. injection E as <- <-. exists [], File. split; [constructor|auto].
    + intros (ns & t' & A & -> & ->). inversion A; subst. left. reflexivity.
  - rewrite visits_dir. inversion NT as [|? HN ND]; subst. split.
    + intros [E|I].
      * injection E as <- <-. exists [], (Dir es). split; [constructor|auto].
      * apply in_flat_map in I. destruct I as ((n & t) & Ie & I). cbn [fst snd] in I. destruct (HN n t Ie) as [Nn Nt]. destruct (join_plain d n PD Nn) as [EJ PJ]. rewrite EJ in I.
        apply (IH t _ p b) in I; auto; [|pose proof (size_in n t es Ie); lia]. destruct I as (ns & t' & A & -> & ->). exists (n :: ns), t'. split; [econstructor; eauto|auto].
    + intros (ns & t' & A & -> & ->). inversion A as [|? n t ns' ? Ie A']; subst; [left; reflexivity|]. right. apply in_flat_map. exists (n, t). split; [exact Ie|]. cbn [fst snd].
      destruct (HN n t Ie) as [Nn Nt]. destruct (join_plain d n PD Nn) as [EJ PJ]. rewrite EJ. apply IH; auto; [pose proof (size_in n t es Ie); lia|]. exists ns', t'. auto.
Qed.
Lemma hasSuffix_iff s suf : hasSuffix s suf = true <-> endsIn s suf.
Proof.
  induction s as [|c s IH]; cbn [hasSuffix].
  - rewrite orb_false_r, String.eqb_eq. split; [intros <-; exists ""; reflexivity|]. intros ([|x a] & E); [exact E|discriminate].
  - rewrite orb_true_iff, String.eqb_eq, IH. split.
    + intros [<-|(a & ->)]; [exists ""; reflexivity|exists (String c a); reflexivity].
    + intros ([|x a] & E); [left; exact E|right]. injection E as _ ->. exists a. reflexivity.
Qed.

(** All files at any depth with the ending are listed, and no others. *)
Theorem C89_files d t ext p : plainDir d -> named t -> In p (listFiles d t ext) <-> exists ns, at_ t ns File /\ p = under d ns /\ endsIn p ext.
Proof.
  intros PD NT. unfold listFiles. rewrite in_map_iff. split.
  - intros ((p' & b) & <- & I). apply filter_In in I. destruct I as [I C]. cbn [fst snd] in *. apply andb_true_iff in C. destruct C as [C1 C2]. destruct b; [discriminate|].
    apply (visits_spec (S (node_size t))) in I; auto. destruct I as (ns & t' & A & -> & B). destruct t'; [|discriminate]. exists ns. split; [exact A|]. split; [reflexivity|]. apply hasSuffix_iff. exact C2.
  - intros (ns & A & -> & S). exists (under d ns, false). split; [reflexivity|]. apply filter_In. split; [|cbn [fst snd]; apply hasSuffix_iff in S; rewrite S; reflexivity].
    apply (visits_spec (Datatypes.S (node_size t))); auto. exists ns, File. auto.
Qed.

(** Each file is listed once. *)
Lemma under_join d ns : ns <> [] -> under d ns = d ++ "/" ++ joinSep ns.
Proof.
  revert d. induction ns as [|n [|m r] IH]; intros d NE; [contradiction|reflexivity|]. cbn [under]. cbn [under] in IH. rewrite IH by discriminate. rewrite join_cons, !app_assoc_s. reflexivity.
Qed.
Lemma app_inj_s a x y : a ++ x = a ++ y -> x = y.
Proof. induction a as [|c a IH]; [auto|]. cbn. intros E. injection E as E. auto. Qed.
Lemma under_inj d ns ms : Forall isName ns -> Forall isName ms -> under d ns = under d ms -> ns = ms.
Proof.
  intros F1 F2 E. destruct ns as [|n r], ms as [|m q]; auto.
  - exfalso. rewrite (under_join d (m :: q)) in E by discriminate. cbn [under] in E. apply (f_equal String.length) in E. rewrite length_append in E. cbn [append String.length] in E. lia.
  - exfalso. rewrite (under_join d (n :: r)) in E by discriminate. cbn [under] in E. apply (f_equal String.length) in E. rewrite length_append in E. cbn [append String.length] in E. lia.
  - rewrite !under_join in E by discriminate. apply app_inj_s in E. cbn [append] in E. injection E as E. rewrite <- (split_join (n :: r)), <- (split_join (m :: q)) by (auto; discriminate). congruence.
Qed.
Lemma at_names t ns t' : named t -> at_ t ns t' -> Forall isName ns.
Proof. intros N A. induction A as [t|es n t ns t' I A IH]; [constructor|]. inversion N as [|? H _]; subst. destruct (H n t I). constructor; auto. Qed.
Lemma NoDup_app_s (A : Type) (l m : list A) : NoDup l -> NoDup m -> (forall x, In x l -> ~ In x m) -> NoDup (l ++ m)%list.
Proof.
  induction 1 as [|x l N ND IH]; intros M D; [exact M|]. cbn. constructor.
  - rewrite in_app_iff. intros [I|I]; [contradiction|]. apply (D x); [left; reflexivity|exact I].
  - apply IH; auto. intros y I. apply D. right. exact I.
Qed.
Lemma visits_once : forall k t d, node_size t < k -> plainDir d -> named t -> NoDup (map fst (visits d t)).
Proof.
  induction k as [|k IH]; intros t d K PD NT; [lia|]. destruct t as [|es]; [repeat constructor; intros []|]. rewrite visits_dir. cbn [map fst]. inversion NT as [|? HN ND]; subst.
  assert (S : forall n t p, In (n, t) es -> In p (map fst (visits (joinPath d n) t)) -> exists ns, Forall isName (n :: ns) /\ p = under d (n :: ns)).
  { intros n t p I J. destruct (HN n t I) as [Nn Nt]. destruct (join_plain d n PD Nn) as [EJ PJ]. rewrite EJ in J. apply in_map_iff in J. destruct J as ((p' & b) & <- & J).
    apply (visits_spec (Datatypes.S (node_size t))) in J; auto. destruct J as (ns & t' & A & -> & _). exists ns. split; [constructor; [exact Nn|exact (at_names t ns t' Nt A)]|reflexivity]. }
  constructor.
  - intros I. apply in_map_iff in I. destruct I as ((p & b) & E & I). apply in_flat_map in I. destruct I as ((n & t) & Ie & I). cbn [fst snd] in *. subst p.
    destruct (S n t d Ie) as (ns & F & E); [apply in_map_iff; exists (d, b); auto|]. rewrite under_join in E by discriminate. apply (f_equal String.length) in E. rewrite length_append in E. cbn [append String.length] in E. lia.
  - assert (SZ : forall n t, In (n, t) es -> node_size t < k) by (intros n t I; pose proof (size_in n t es I); lia). clear K NT.
    induction es as [|[n t] r IHr]; [constructor|]. cbn [flat_map fst snd]. rewrite map_app. inversion ND as [|? ? NI ND']; subst. apply NoDup_app_s.
    + destruct (HN n t) as [Nn Nt]; [left; reflexivity|]. destruct (join_plain d n PD Nn) as [EJ PJ]. rewrite EJ. apply IH; auto. apply (SZ n t). left. reflexivity.
    + apply IHr; auto; [intros m u I; apply HN; right; exact I|intros m u p I; apply S; right; exact I|intros m u I; apply (SZ m u); right; exact I].
    + intros p I J. destruct (S n t p (or_introl eq_refl) I) as (ns & F & ->). apply in_map_iff in J. destruct J as ((p & b) & E & J). apply in_flat_map in J. destruct J as ((m & u) & Im & J). cbn [fst snd] in *.
      destruct (S m u p (or_intror Im)) as (ms & F2 & ->); [apply in_map_iff; exists (p, b); auto|]. apply under_inj in E; auto. injection E as -> _. apply NI. apply in_map_iff. exists (n, u). auto.
Qed.
Theorem C89_once d t ext : plainDir d -> named t -> NoDup (listFiles d t ext).
Proof.
  intros PD NT. pose proof (visits_once (S (node_size t)) t d (le_n _) PD NT) as H. unfold listFiles. induction (visits d t) as [|v l IH]; [constructor|]. cbn [map] in H. inversion H as [|? ? NI ND]; subst. cbn [filter].
  destruct (negb (snd v) && hasSuffix (fst v) ext); [|auto]. cbn [map]. constructor; [|auto]. intros I. apply NI. apply in_map_iff in I. destruct I as (w & E & I). apply filter_In in I. apply in_map_iff. exists w. tauto.
Qed.
Print Assumptions C89_once.

(** The list without the directory has the same files, in the same order, each with the directory and a separator taken away. *)
Lemma dropPrefix_app a b : dropPrefix a (a ++ b) = Some b.
Proof. induction a as [|c a IH]; [reflexivity|]. cbn [append dropPrefix]. rewrite Ascii.eqb_refl. exact IH. Qed.
Theorem C89_relative d es ext : plainDir d -> named (Dir es) -> map (fun r => d ++ "/" ++ r) (RelFileList d (Dir es) ext) = listFiles d (Dir es) ext.
Proof.
  intros PD NT. unfold RelFileList, listFiles. rewrite map_map. apply map_ext_in. intros (p & b) I. apply filter_In in I. destruct I as [I C]. cbn [fst snd] in *. apply andb_true_iff in C. destruct C as [C1 _]. destruct b; [discriminate|].
  apply (visits_spec (S (node_size (Dir es)))) in I; auto. destruct I as (ns & t' & A & -> & B). destruct ns as [|n r].
  - inversion A; subst. discriminate.
  - destruct (under_app d (n :: r)) as (s & -> & _ & H). destruct (H n r eq_refl) as (x & ->). unfold trimPrefix. rewrite dropPrefix_app. reflexivity.
Qed.

(** Clearing a directory removes these files and leaves all others. *)
Lemma removes l : forall (d : disk) m, fold_left remove l d m = if in_dec string_dec m l then None else d m.
Proof.
  induction l as [|n l IH]; intros d m; [reflexivity|]. cbn [fold_left]. rewrite IH. unfold remove. destruct (String.eqb_spec m n) as [->|NE].
  - destruct (in_dec string_dec n l), (in_dec string_dec n (n :: l)) as [|X]; auto; destruct X; left; reflexivity.
  - destruct (in_dec string_dec m l) as [I|I], (in_dec string_dec m (n :: l)) as [J|J]; auto.
    + destruct J. right. exact I.
    + destruct J as [J|J]; [congruence|contradiction].
Qed.
Theorem C89_clear disk0 d t ext p : plainDir d -> named t ->
  ((exists ns, at_ t ns File /\ p = under d ns /\ endsIn p ext) -> ClearDir disk0 d t ext p = None) /\
  ((forall ns, at_ t ns File -> p = under d ns -> ~ endsIn p ext) -> ClearDir disk0 d t ext p = disk0 p).
Proof.
  intros PD NT. unfold ClearDir. rewrite removes. pose proof (C89_files d t ext p PD NT) as H. destruct (in_dec string_dec p (listFiles d t ext)) as [I|I]; split; auto.
  - intros N. apply H in I. destruct I as (ns & A & E & S). destruct (N ns A E S).
  - intros E. destruct (I (proj2 H E)).
Qed.

(** The list of directories has no directory in it: it is the list of all files. *)
Theorem C89_directories_refuted d t : plainDir d -> named t ->
  DirectoryList d t = listFiles d t "" /\ (forall p, In p (DirectoryList d t) <-> exists ns, at_ t ns File /\ p = under d ns).
Proof.
  intros PD NT. assert (E : DirectoryList d t = listFiles d t "").
  { unfold DirectoryList, listFiles. f_equal. apply filter_ext. intros (p & b). cbn [fst snd]. replace (hasSuffix p "") with true; [rewrite andb_true_r; reflexivity|].
    symmetry. apply hasSuffix_iff. exists p. symmetry. apply app_nil_r_s. }
  split; [exact E|]. intros p. rewrite E, C89_files by auto. split; [intros (ns & A & B & _); eauto|]. intros (ns & A & ->). exists ns. repeat split; auto. exists (under d ns). symmetry. apply app_nil_r_s.
Qed.
(** A directory that is not written plainly stays in front of the names, and the dot of a hidden file is taken away with the directory ".". *)
Theorem C89_relative_refuted : exists es, named (Dir es) /\
  RelFileList "./designs" (Dir es) "hfd" = ["designs/box.hfd"; "designs/.old.hfd"] /\ RelFileList "." (Dir es) "hfd" = ["box.hfd"; "old.hfd"] /\
  RelFileList "designs" (Dir es) "hfd" = ["box.hfd"; ".old.hfd"].
Proof.
  exists [("box.hfd", File); (".old.hfd", File)]. split; [|repeat split].
  assert (W : forall s, afterLast "/" s = None -> without "/" s) by (intros s H a b ->; clear -H; induction a as [|c a IH]; cbn in H; [destruct (afterLast "/" b); discriminate|destruct (afterLast "/" (a ++ String "/" b)); [discriminate|apply IH; reflexivity]]).
  constructor.
  - intros n t [E|[E|[]]]; injection E as <- <-; (split; [|constructor]); repeat split; try discriminate; apply W; reflexivity.
  - constructor; [intros [E|[]]; discriminate|]. constructor; [intros []|constructor].
Qed.
(** An ending is not an extension: the files of the design tool and any others that end in these letters are taken alike. *)
Theorem C89_ending_refuted : exists t ext p, named t /\ In p (listFiles "designs_rendered" t ext) /\ Output.ext p = "" /\ forall disk0, ClearDir disk0 "designs_rendered" t ext p = None.
Proof.
  exists (Dir [("backup_svg", File)]), "svg", "designs_rendered/backup_svg". split; [|split; [left; reflexivity|split; [reflexivity|reflexivity]]].
  constructor; [|constructor; [intros []|constructor]]. intros n t [E|[]]. injection E as <- <-. split; [|constructor]. repeat split; try discriminate.
  intros a b E. assert (L : afterLast "/" "backup_svg" = None) by reflexivity. rewrite E in L. clear E. induction a as [|c a IH]; cbn in L; [destruct (afterLast "/" b); discriminate|destruct (afterLast "/" (a ++ String "/" b)); [discriminate|apply IH; reflexivity]].
Qed.
Print Assumptions C89_files. Print Assumptions C89_relative. Print Assumptions C89_clear. Print Assumptions C89_directories_refuted. Print Assumptions C89_relative_refuted. Print Assumptions C89_ending_refuted.

(** *** examples *)
Definition exTree : node := Dir [("boxes", Dir [("lid.hfd", File); ("notes.txt", File)]); ("empty", Dir []); ("plate.hfd", File)].
Lemma bare s : afterLast "/" s = None -> without "/" s.
Proof. intros H a b ->. induction a as [|c a IH]; cbn in H; [destruct (afterLast "/" b); discriminate|destruct (afterLast "/" (a ++ String "/" b)); [discriminate|apply IH; reflexivity]]. Qed.
Lemma exTree_named : named exTree.
Proof.
  assert (N : forall s, s <> "" -> s <> "." -> s <> ".." -> afterLast "/" s = None -> isName s) by (intros s A B C D; repeat split; auto; apply bare; exact D).
  constructor; [|repeat constructor; cbn; intuition discriminate]. intros n t [E|[E|[E|[]]]]; injection E as <- <-; (split; [apply N; try discriminate; reflexivity|]).
  - constructor; [|repeat constructor; cbn; intuition discriminate]. intros n t [E|[E|[]]]; injection E as <- <-; (split; [apply N; try discriminate; reflexivity|constructor]).
  - constructor; [intros n t []|constructor].
  - constructor.
Qed.
Lemma designs_plain : plainDir "designs".
Proof. exists ["designs"]. split; [discriminate|]. split; [|left; reflexivity]. constructor; [|constructor]. repeat split; try discriminate. apply bare. reflexivity. Qed.
Example C89_files_ex : listFiles "designs" exTree "hfd" = ["designs/boxes/lid.hfd"; "designs/plate.hfd"] /\ at_ exTree ["boxes"; "lid.hfd"] File /\ under "designs" ["boxes"; "lid.hfd"] = "designs/boxes/lid.hfd" /\
  In "designs/boxes/lid.hfd" (listFiles "designs" exTree "hfd").
Proof.
  assert (A : at_ exTree ["boxes"; "lid.hfd"] File) by (eapply at_in; [left; reflexivity|]; eapply at_in; [left; reflexivity|]; constructor).
  split; [reflexivity|]. split; [exact A|]. split; [reflexivity|]. apply (C89_files "designs" exTree "hfd" _ designs_plain exTree_named). exists ["boxes"; "lid.hfd"]. split; [exact A|]. split; [reflexivity|]. exists "designs/boxes/lid.". reflexivity.
Qed.
Example C89_once_ex : NoDup (listFiles "designs" exTree "") /\ List.length (listFiles "designs" exTree "") = 3.
Proof. split; [apply C89_once; [exact designs_plain|exact exTree_named]|reflexivity]. Qed.
Example C89_relative_ex : RelFileList "designs" exTree "hfd" = ["boxes/lid.hfd"; "plate.hfd"] /\ map (fun r => "designs" ++ "/" ++ r) (RelFileList "designs" exTree "hfd") = listFiles "designs" exTree "hfd".
Proof. split; [reflexivity|]. apply C89_relative; [exact designs_plain|exact exTree_named]. Qed.
Example C89_clear_ex : ClearDir (fun p => Some p) "designs" exTree "hfd" "designs/plate.hfd" = None /\ ClearDir (fun p => Some p) "designs" exTree "hfd" "designs/boxes/notes.txt" = Some "designs/boxes/notes.txt".
Proof. split; reflexivity. Qed.
Example C89_directories_ex : DirectoryList "designs" exTree = ["designs/boxes/lid.hfd"; "designs/boxes/notes.txt"; "designs/plate.hfd"] /\ at_ exTree ["boxes"] (Dir [("lid.hfd", File); ("notes.txt", File)]) /\ ~ In "designs/boxes" (DirectoryList "designs" exTree).
Proof. split; [reflexivity|]. split; [eapply at_in; [left; reflexivity|constructor]|]. intros [E|[E|[E|[]]]]; discriminate. Qed.
