(** C98: what the words of the command line make the program do. *)
From Coq Require Import String Ascii List NArith Arith Bool Lia.
From Verif Require Import Num DynModel DynProofs Output Files CommandLine TextProofs Prop_C78 Prop_C79.
Import ListNotations.
Local Open Scope string_scope.

(** Specification.  A flag with its value is written in four ways. *)
Inductive given (n v : string) : list string -> Prop :=
| one_dash : given n v ["-" ++ n; v]
| two_dashes : given n v ["--" ++ n; v]
| one_dash_eq : given n v ["-" ++ n ++ "=" ++ v]
| two_dashes_eq : given n v ["--" ++ n ++ "=" ++ v].
(** what a name can be *)
Definition nameText (n : string) : Prop := n <> "" /\ without "=" n /\ forall r, n <> String "-" r.
(** the flags that there are and what they are worth when they are not given *)
Inductive standard : string -> string -> Prop :=
| std_path : standard "path" "" | std_output_file : standard "output_file" "" | std_render_dir : standard "render_dir" "designs/"
| std_output_dir : standard "output_dir" "" | std_compare_dir : standard "compare_dir" "designs_rendered".
Definition known (n : string) : Prop := exists v, standard n v.
(** the words of some flags *)
Inductive flags : list (string * string) -> list string -> Prop :=
| flags_nil : flags [] []
| flags_cons n v ws fs r : known n -> given n v ws -> flags fs r -> flags ((n, v) :: fs) (ws ++ r)%list.
(** the flags end with the line, with the word -- and with a word that does not begin with - or is that sign only *)
Definition ends (ws : list string) : Prop := match ws with [] => True | w :: _ => w = "--" \/ w = "-" \/ forall r, w <> String "-" r end.
Definition line (fs : list (string * string)) (ws : list string) : Prop := exists a b, ws = (a ++ b)%list /\ flags fs a /\ ends b.
(** what a flag is worth: the last value given *)
Definition worth (fs : list (string * string)) (n v : string) : Prop :=
  (exists a b, fs = (a ++ (n, v) :: b)%list /\ ~ In n (map fst b)) \/ (~ In n (map fst fs) /\ standard n v).
(** words that are no flags of the program although they begin like one *)
Inductive wrong : list string -> Prop :=
| unknown n v ws r : nameText n -> ~ known n -> given n v ws -> wrong (ws ++ r)%list
| unknown_alone n d r : nameText n -> ~ known n -> d = "-" \/ d = "--" -> wrong ((d ++ n) :: r)
| no_value n d : known n -> d = "-" \/ d = "--" -> wrong [d ++ n]
| no_name w d r : d = "-=" \/ d = "--=" \/ d = "---" -> wrong ((d ++ w) :: r).
Definition wrongLine (ws : list string) : Prop := exists fs a b, ws = (a ++ b)%list /\ flags fs a /\ wrong b.

(** words *)
Lemma known_name n : known n -> nameText n.
Proof. intros [v H]; destruct H; (split; [discriminate|split; [apply without_dec; reflexivity|discriminate]]). Qed.
Lemma cutEq_none n : without "=" n -> cutEq n = (n, None).
Proof. induction n as [|c n IH]; [reflexivity|]. intros H. apply without_cons in H. destruct H as [H1 H2]. cbn. apply Ascii.eqb_neq in H1. rewrite H1, IH; auto. Qed.
Lemma cutEq_some n v : without "=" n -> cutEq (n ++ "=" ++ v) = (n, Some v).
Proof. induction n as [|c n IH]; [reflexivity|]. intros H. apply without_cons in H. destruct H as [H1 H2]. cbn. apply Ascii.eqb_neq in H1. cbn in IH. rewrite H1, IH; auto. Qed.
Lemma flagNamed_none n : nameText n -> flagNamed n = Flag n None.
Proof.
  intros (H0 & H1 & H2). destruct n as [|c n]; [contradiction|]. apply without_cons in H1. destruct H1 as [H1 H3]. cbn.
  assert (H4 : c <> "-"%char) by (intros ->; now apply (H2 n)). apply Ascii.eqb_neq in H1, H4. rewrite H1, H4. cbn. rewrite cutEq_none; auto.
Qed.
Lemma flagNamed_some n v : nameText n -> flagNamed (n ++ "=" ++ v) = Flag n (Some v).
Proof.
  intros (H0 & H1 & H2). destruct n as [|c n]; [contradiction|]. apply without_cons in H1. destruct H1 as [H1 H3]. cbn.
  assert (H4 : c <> "-"%char) by (intros ->; now apply (H2 n)). apply Ascii.eqb_neq in H1, H4. rewrite H1, H4. cbn.
  pose proof (cutEq_some n v H3) as E. cbn in E. rewrite E. reflexivity.
Qed.
Lemma wordOf_dash d n t : d = "-" \/ d = "--" -> nameText n -> wordOf (d ++ n ++ t) = flagNamed (n ++ t).
Proof.
  intros D (H0 & H1 & H2). destruct n as [|c n]; [contradiction|].
  assert (H4 : c <> "-"%char) by (intros ->; now apply (H2 n)). apply Ascii.eqb_neq in H4.
  destruct D as [-> | ->]; cbn; [rewrite H4|]; reflexivity.
Qed.
Lemma wordOf_alone d n : d = "-" \/ d = "--" -> nameText n -> wordOf (d ++ n) = Flag n None.
Proof. intros D H. rewrite <- (flagNamed_none n H). rewrite <- (app_nil_r_s n) at 1. rewrite wordOf_dash, app_nil_r_s; auto. Qed.
Lemma wordOf_eq d n v : d = "-" \/ d = "--" -> nameText n -> wordOf (d ++ n ++ "=" ++ v) = Flag n (Some v).
Proof. intros D H. rewrite wordOf_dash, flagNamed_some; auto. Qed.

Lemma parse_given s n v ws r : nameText n -> given n v ws -> parseFlags s (ws ++ r) = match lookup n s with None => None | Some _ => parseFlags (set n v s) r end.
Proof.
  intros H G. destruct G; cbn [app parseFlags]; rewrite ?wordOf_alone, ?wordOf_eq by (auto; fail); try reflexivity.
  all: (rewrite wordOf_alone || rewrite wordOf_eq); auto.
Qed.
Definition keeps (s : settings) : Prop := forall n, known n <-> lookup n s <> None.
Lemma keeps_defaults : keeps defaults.
Proof.
  intros n. split.
  - intros [v []]; discriminate.
  - unfold defaults. cbn [lookup].
    destruct (String.eqb_spec n "path") as [->|_]; [eexists; constructor|]. destruct (String.eqb_spec n "output_file") as [->|_]; [eexists; constructor|].
    destruct (String.eqb_spec n "render_dir") as [->|_]; [eexists; constructor|]. destruct (String.eqb_spec n "output_dir") as [->|_]; [eexists; constructor|].
    destruct (String.eqb_spec n "compare_dir") as [->|_]; [eexists; constructor|]. now intros [].
Qed.
Lemma keeps_set s n v : keeps s -> known n -> keeps (set n v s).
Proof.
  intros K H m. destruct (String.eqb_spec n m) as [->|E].
  - rewrite lookup_set_same. split; [discriminate|auto].
  - rewrite lookup_set_other by exact E. apply K.
Qed.
Lemma parse_flags fs a : flags fs a -> forall s r, keeps s -> exists s', keeps s' /\ parseFlags s (a ++ r) = parseFlags s' r /\
  (forall n v, (exists x y, fs = (x ++ (n, v) :: y)%list /\ ~ In n (map fst y)) -> setting s' n = v) /\ (forall n, ~ In n (map fst fs) -> lookup n s' = lookup n s).
Proof.
  induction 1 as [|n v ws fs r K G F IH]; intros s t KS.
  - exists s. split; [exact KS|]. split; [reflexivity|]. split; [|reflexivity]. intros n v (x & y & E & _). destruct x; discriminate.
  - rewrite <- app_assoc. rewrite (parse_given _ n v) by (auto using known_name).
    destruct (lookup n s) eqn:L; [|exfalso; now apply (proj1 (KS n) K)].
    destruct (IH (set n v s) t (keeps_set s n v KS K)) as (s' & K' & E & A & B). exists s'. split; [exact K'|]. split; [exact E|]. split.
    + intros m w (x & y & Ex & Ny). destruct x as [|[n1 v1] x]; cbn in Ex; inversion Ex; subst.
      * unfold setting. rewrite B by exact Ny. now rewrite lookup_set_same.
      * apply A. eauto.
    + intros m Nm. cbn in Nm. rewrite B by tauto. apply lookup_set_other. tauto.
Qed.
Lemma parse_end s b : ends b -> parseFlags s b = Some s.
Proof.
  destruct b as [|w b]; [reflexivity|]. cbn. intros [-> |[-> |H]]; [reflexivity|reflexivity|].
  assert (E : wordOf w = NoFlag); [|now rewrite E]. destruct w as [|c [|c' w]]; [reflexivity|reflexivity|]. cbn. destruct (Ascii.eqb_spec c "-") as [->|_]; [|reflexivity]. exfalso. now apply (H (String c' w)).
Qed.
Lemma parse_line fs ws : line fs ws -> exists s, parseFlags defaults ws = Some s /\ forall n v, worth fs n v -> setting s n = v.
Proof.
  intros (a & b & -> & F & E). destruct (parse_flags fs a F defaults b keeps_defaults) as (s & K & P & A & B). exists s. rewrite P, parse_end by exact E. split; [reflexivity|].
  intros n v [W|[Nn S]]; [apply A; exact W|]. unfold setting. rewrite B by exact Nn. destruct S; reflexivity.
Qed.
Lemma parse_wrong ws : wrongLine ws -> parseFlags defaults ws = None.
Proof.
  intros (fs & a & b & -> & F & W). destruct (parse_flags fs a F defaults b keeps_defaults) as (s & K & P & _). rewrite P. clear P F.
  assert (U : forall n, ~ known n -> lookup n s = None) by (intros n H; destruct (lookup n s) eqn:L; [exfalso; apply H, K; congruence|reflexivity]).
  destruct W as [n v ws r Hn Hk G|n d r Hn Hk D|n d Hk D|w d r D].
  - rewrite (parse_given s n v) by assumption. now rewrite (U n Hk).
  - cbn. rewrite wordOf_alone by assumption. now rewrite (U n Hk).
  - cbn. rewrite wordOf_alone by (auto using known_name). destruct (lookup n s); reflexivity.
  - destruct D as [-> |[-> | ->]]; reflexivity.
Qed.

Section Main.
Variable isDir : string -> bool.
Variable clean : string -> string.
Variable rendered : string -> option (list string).
Variable files : disk -> string -> string -> option (list string).
Variable canMake : string -> bool.
Variable temp : string.
Notation main := (main isDir clean rendered files canMake temp).

Lemma trimSuffix_none s : trimSuffix s "" = s.
Proof. rewrite <- (app_nil_r_s s) at 1. apply trimSuffix_app. Qed.
(** how the files of a design are named after the text for the output *)
Definition within (dir name b : string) : Prop := (dir = "." /\ b = name) \/ (dir = "/" /\ b = "/" ++ name) \/ (dir <> "." /\ dir <> "/" /\ b = dir ++ "/" ++ name).
Inductive namedBy (p : docPath) : string -> string -> Prop :=
| by_design : namedBy p "" (dp_name p)
| by_dir o b : o <> "" -> isDir o = true -> within (clean o) (dp_name p) b -> namedBy p o b
| by_text dir n : isDirText dir -> without "/" n -> without "." n -> n <> "" -> isDir (dir ++ n) = false -> namedBy p (dir ++ n) (dir ++ n)
| by_text_ext o : shaped o -> dp_name o <> "" -> isDir (text o) = false -> namedBy p (text o) (dp_dir o ++ dp_name o).
Lemma ext_text p : shaped p -> ext (text p) = "." ++ dp_ext p.
Proof. intros HS. pose proof HS as (Hd & Hn & He & Hx). unfold ext. rewrite (base_shaped p HS). cbn [append]. rewrite afterLast_app by exact Hx. reflexivity. Qed.
Lemma base_app dir n : isDirText dir -> without "/" n -> base (dir ++ n) = n.
Proof. intros [-> |[t ->]] H; unfold base; [cbn; now rewrite afterLast_none|]. rewrite app_assoc_s. cbn [append]. now rewrite afterLast_app. Qed.
Lemma createFilename_namedBy p o b : shaped p -> namedBy p o b -> createFilename isDir clean o (text p) = b.
Proof.
  intros HS H. pose proof HS as (Hd & Hn & He & Hx). destruct H as [|o b H0 H1 H2|dir n H0 H1 H2 H3 H4|o H0 H1 H2].
  - unfold createFilename. cbn [String.eqb]. rewrite (base_shaped p HS), (ext_text p HS). apply trimSuffix_app.
  - unfold createFilename. rewrite (base_shaped p HS), H1. apply String.eqb_neq in H0. rewrite H0. cbn [String.eqb]. rewrite (ext_base _ _ Hn He Hx), trimSuffix_app. unfold joinDir.
    destruct H2 as [[-> ->]|[[-> ->]|(A & B & ->)]]; [reflexivity|reflexivity|]. apply String.eqb_neq in A, B. now rewrite A, B.
  - unfold createFilename. rewrite H4, (base_app dir n H0 H1).
    assert (X : ext (dir ++ n) = "") by (unfold ext; rewrite (base_app dir n H0 H1), afterLast_none by exact H2; reflexivity). rewrite X, trimSuffix_none.
    assert (E : dir ++ n <> "") by (destruct dir; [exact H3|discriminate]). apply String.eqb_neq in E, H3. now rewrite E, H3.
  - now apply C78_given.
Qed.
(** the sheets of one design are saved, and nothing else *)
Definition savedAs (b : string) (sheets : list string) (before after : disk) : Prop :=
  (forall i s, nth_error sheets i = Some s -> exists t, number t (N.of_nat i) /\ after (b ++ "_" ++ t ++ ".svg") = Some s) /\
  (forall m, after m <> before m -> exists i t, (i < List.length sheets)%nat /\ number t (N.of_nat i) /\ m = b ++ "_" ++ t ++ ".svg").
Lemma save_savedAs b sheets d : savedAs b sheets d (save d b sheets).
Proof.
  split.
  - intros i s H. exists (pad3 (N.of_nat i)). split; [apply pad3_number|]. apply (saveFrom_nth b sheets d 0 i s H).
  - intros m H. assert (G : forall l e k, saveFrom e b k l m <> e m -> exists i, (i < List.length l)%nat /\ m = fileName b (k + N.of_nat i)).
    { induction l as [|s l IH]; intros e k D; [contradiction|]. cbn [saveFrom] in D. destruct (String.eqb_spec m (fileName b k)) as [E|E].
      - exists 0%nat. split; [cbn; lia|]. rewrite N.add_0_r. exact E.
      - destruct (IH (write e (fileName b k) s) (N.succ k)) as (i & L & ->).
        + intros E2. apply D. rewrite E2. unfold write. apply String.eqb_neq in E. now rewrite E.
        + exists (S i). split; [cbn; lia|]. f_equal. lia. }
    destruct (G sheets d 0%N H) as (i & L & ->). exists i, (pad3 (N.of_nat i)). split; [exact L|]. split; [apply pad3_number|reflexivity].
Qed.

(** render: the design is that of the flag path, or of the first word when there is no such flag; all its sheets are saved under the name that the flag output_file gives, and nothing else is touched.
    A design that does not render leaves everything as it was. *)
Theorem C98_render fs ws path o p b d : line fs ws -> worth fs "path" path -> worth fs "output_file" o -> shaped p ->
  path = text p \/ path = "" /\ (exists r, ws = text p :: r) -> namedBy p o b ->
  match rendered (text p) with
  | Some sheets => exists after, main ("render" :: ws) d = Ok (after, Done) /\ savedAs b sheets d after
  | None => main ("render" :: ws) d = Ok (d, Exit)
  end.
Proof.
  intros L WP WO HS HP HN. destruct (parse_line fs ws L) as (s & P & V). apply V in WP, WO.
  assert (NE : text p <> "") by (unfold text; intros E; apply (f_equal String.length) in E; rewrite !length_append in E; cbn in E; lia).
  assert (X : exists first r, ws = first :: r /\ (if String.eqb (setting s "path") "" then first else setting s "path") = text p).
  { rewrite WP. destruct HP as [-> |[-> [r ->]]]; [|exists (text p), r; split; reflexivity].
    apply String.eqb_neq in NE. rewrite NE. destruct ws as [|w r]; [|eauto]. exfalso. cbn in P. inversion P; subst. rewrite <- WP in NE. discriminate. }
  destruct X as (first & r & -> & E). unfold CommandLine.main. rewrite P. cbn [String.eqb Ascii.eqb Bool.eqb]. cbv zeta. rewrite E. apply String.eqb_neq in NE. rewrite NE, WO.
  rewrite (createFilename_namedBy p o b HS HN). destruct (rendered (text p)) as [sheets|]; [|reflexivity]. eexists. split; [reflexivity|]. apply save_savedAs.
Qed.

(** the sheets of many designs are saved in a directory, and nothing else *)
Definition savedIn (dir : string) (docs : list docPath) (before after : disk) : Prop :=
  (forall p sheets i s, In p docs -> rendered (text p) = Some sheets -> nth_error sheets i = Some s ->
     exists t, number t (N.of_nat i) /\ after (dir ++ "/" ++ dp_name p ++ "_" ++ t ++ ".svg") = Some s) /\
  (forall m, after m <> before m -> exists p sheets i t, In p docs /\ rendered (text p) = Some sheets /\ (i < List.length sheets)%nat /\ number t (N.of_nat i) /\ m = dir ++ "/" ++ dp_name p ++ "_" ++ t ++ ".svg").
(** designs with different names, and a directory for the output that can be made *)
Definition ready (docs : list docPath) (out dir : string) : Prop :=
  Forall shaped docs /\ out <> "" /\ canMake out = true /\ clean out = dir /\ dir <> "." /\ dir <> "/" /\
  (forall p q, In p docs -> In q docs -> rendered (text p) <> None -> rendered (text q) <> None -> dp_name p = dp_name q -> p = q).
Lemma RenderDir_saved rd docs out dir d : files d rd "hfd" = Some (map text docs) -> ready docs out dir ->
  exists after, RenderDir isDir clean rendered files canMake rd out d = Some after /\ savedIn dir docs d after.
Proof.
  intros F (HS & H0 & H1 & H2 & H3 & H4 & U). unfold RenderDir, makeDir. rewrite F, H1. pose proof H0 as H0'. apply String.eqb_neq in H0'. rewrite H0'. cbn [negb andb].
  eexists. split; [reflexivity|]. apply C78_saved; auto. rewrite String.eqb_refl. reflexivity.
Qed.
Lemma RenderDir_none rd out d : files d rd "hfd" = None \/ out = "" \/ canMake out = false -> RenderDir isDir clean rendered files canMake rd out d = None.
Proof.
  unfold RenderDir, makeDir. intros [-> |[-> |H]]; [reflexivity|destruct (files d rd "hfd"); reflexivity|]. rewrite H, andb_false_r. destruct (files d rd "hfd"); reflexivity.
Qed.

(** render_all: every sheet of every design of the directory is saved in the directory for the output, and nothing else is touched *)
Theorem C98_render_all fs ws rd out dir docs d : line fs ws -> worth fs "render_dir" rd -> worth fs "output_dir" out ->
  files d rd "hfd" = Some (map text docs) -> ready docs out dir ->
  exists after, main ("render_all" :: ws) d = Ok (after, Done) /\ savedIn dir docs d after.
Proof.
  intros L W1 W2 F R. destruct (parse_line fs ws L) as (s & P & V). apply V in W1, W2. destruct (RenderDir_saved rd docs out dir d F R) as (after & E & S).
  exists after. split; [|exact S]. unfold CommandLine.main. rewrite P. cbn [String.eqb Ascii.eqb Bool.eqb]. rewrite W1, W2, E. reflexivity.
Qed.

(** designs_updated: the sheets of designs are saved in designs_rendered, every other sheet in it is gone, and nothing else is touched; other flags do not matter *)
Theorem C98_updated fs ws docs olds d : line fs ws -> files d "designs_rendered" "svg" = Some olds ->
  (forall e, (forall m, ~ In m olds -> e m = d m) -> files e "designs" "hfd" = Some (map text docs)) -> ready docs "designs_rendered" "designs_rendered" ->
  exists cleared after, main ("designs_updated" :: ws) d = Ok (after, Done) /\
    (forall m, cleared m = None /\ In m olds \/ cleared m = d m /\ ~ In m olds) /\ savedIn "designs_rendered" docs cleared after.
Proof.
  intros L F1 F2 R. destruct (parse_line fs ws L) as (s & P & _).
  set (e := fold_left remove olds d).
  assert (C : forall l x m, fold_left remove l x m = if in_dec string_dec m l then None else x m).
  { induction l as [|n l IH]; intros x m; [reflexivity|]. cbn [fold_left]. rewrite IH. unfold remove. destruct (in_dec string_dec m l) as [I|I].
    - destruct (in_dec string_dec m (n :: l)) as [J|J]; [reflexivity|]. exfalso. apply J. right. exact I.
    - destruct (String.eqb_spec m n) as [-> |E]; destruct (in_dec string_dec _ (n :: l)) as [J|J]; try reflexivity.
      + exfalso. apply J. left. reflexivity.
      + exfalso. destruct J as [J|J]; [congruence|contradiction]. }
  assert (C2 : forall m, e m = None /\ In m olds \/ e m = d m /\ ~ In m olds) by (intros m; unfold e; rewrite C; destruct (in_dec string_dec m olds); auto).
  destruct (RenderDir_saved "designs" docs "designs_rendered" "designs_rendered" e) as (after & E & S).
  - apply F2. intros m Nm. destruct (C2 m) as [[_ I]|[I _]]; [contradiction|exact I].
  - exact R.
  - exists e, after. split; [|split; [exact C2|exact S]]. unfold CommandLine.main. rewrite P. cbn [String.eqb Ascii.eqb Bool.eqb]. unfold clearDir. rewrite F1. fold e. cbv zeta. rewrite E. reflexivity.
Qed.

(** diff_test: the designs are rendered into the directory for the output, or one of its own; the number that is printed is zero exactly when every file of the directory
    to compare that has a file of the same name in the output has its text *)
Theorem C98_diff fs ws rd od out cd dir docs d : line fs ws -> worth fs "render_dir" rd -> worth fs "output_dir" od -> worth fs "compare_dir" cd ->
  out = od /\ od <> "" \/ out = temp /\ od = "" -> files d rd "hfd" = Some (map text docs) -> ready docs out dir ->
  exists after n, main ("diff_test" :: ws) d = Ok (after, Counted n) /\ savedIn dir docs d after /\
    forall olds news, files after cd "svg" = Some olds -> files after out "svg" = Some news -> oneEach news ->
      (n = 0%nat <-> forall l r k, In l olds -> In r news -> named l k -> named r k -> content after l = content after r).
Proof.
  intros L W1 W2 W3 O F R. destruct (parse_line fs ws L) as (s & P & V). apply V in W1, W2, W3. destruct (RenderDir_saved rd docs out dir d F R) as (after & E & S).
  assert (EO : (if String.eqb od "" then temp else od) = out). { destruct O as [[-> N]|[-> ->]]; [|reflexivity]. apply String.eqb_neq in N. now rewrite N. }
  eexists after, _. split; [|split; [exact S|]].
  - unfold CommandLine.main. rewrite P. cbn [String.eqb Ascii.eqb Bool.eqb]. cbv zeta. rewrite W1, W2, W3, EO, E. reflexivity.
  - intros olds news F1 F2 U. unfold compareDirs. rewrite F1, F2. apply C79_count. exact U.
Qed.

(** A line with a word that is no flag of the program changes nothing, whatever the command; neither does a line without a command that is known, and serve. *)
Theorem C98_wrong c ws d : (wrongLine ws -> main (c :: ws) d = Ok (d, Exit)) /\ main [] d = Ok (d, Usage) /\
  (forall fs, line fs ws -> main ("serve" :: ws) d = Ok (d, Served) /\
     (~ In c ["serve"; "render"; "render_all"; "designs_updated"; "diff_test"] -> main (c :: ws) d = Ok (d, Usage))).
Proof.
  split; [|split; [reflexivity|]].
  - intros W. unfold CommandLine.main. now rewrite (parse_wrong ws W).
  - intros fs L. destruct (parse_line fs ws L) as (s & P & _). unfold CommandLine.main. rewrite P. split; [reflexivity|]. intros N. cbn [In] in N.
    repeat match goal with |- context [String.eqb c ?x] => destruct (String.eqb_spec c x) as [-> |_]; [exfalso; tauto|] end. reflexivity.
Qed.

(** The program panics on one line only: render without another word, where the usage or the message that a file name is required should appear. *)
Theorem C98_alone_refuted args d : match main args d with Ok _ => args <> ["render"] | Panic => args = ["render"] | _ => False end.
Proof.
  destruct args as [|c ws]; [discriminate|]. unfold CommandLine.main. destruct (parseFlags defaults ws) as [s|] eqn:P; [|intros E; inversion E; subst; discriminate].
  destruct (String.eqb_spec c "serve") as [-> |_]; [discriminate|]. destruct (String.eqb_spec c "render") as [-> |N].
  - destruct ws as [|w ws]; [reflexivity|]. cbv zeta. destruct (String.eqb (if _ : bool then _ else _) ""); [discriminate|]. destruct (rendered _); discriminate.
  - assert (H : c :: ws <> ["render"]) by congruence. cbv zeta. destruct (String.eqb c "render_all"); [destruct (RenderDir _ _ _ _ _ _ _ _); exact H|].
    destruct (String.eqb c "designs_updated"); [destruct (RenderDir _ _ _ _ _ _ _ _); exact H|]. destruct (String.eqb c "diff_test"); [destruct (RenderDir _ _ _ _ _ _ _ _); exact H|exact H].
Qed.

(** Flags after the name of a design are not read: the design is saved under its own name. *)
Theorem C98_after_refuted p fs ws d : shaped p -> (forall r, text p <> String "-" r) -> flags fs ws -> main ("render" :: text p :: ws) d = main ["render"; text p] d.
Proof.
  intros HS H F. assert (E : forall r, parseFlags defaults (text p :: r) = Some defaults).
  { intros r. apply parse_end. right. right. exact H. }
  unfold CommandLine.main. rewrite !E. reflexivity.
Qed.
(** Flags before the name of a design make a flag the name of the design: nothing is rendered. *)
Theorem C98_before_refuted fs ws p d : flags fs ws -> fs <> [] -> ~ In "path" (map fst fs) -> (forall r, text p <> String "-" r) -> (forall w, (exists r, w = String "-" r) -> rendered w = None) ->
  main ("render" :: ws ++ [text p])%list d = Ok (d, Exit).
Proof.
  intros F NE NP H R. assert (L : line fs (ws ++ [text p])). { exists ws, [text p]. split; [reflexivity|]. split; [exact F|]. right. right. exact H. }
  destruct (parse_line _ _ L) as (s & P & V). unfold CommandLine.main. rewrite P. cbn [String.eqb Ascii.eqb Bool.eqb]. rewrite (V "path" "") by (right; split; [exact NP|constructor]).
  destruct F as [|n v w1 fs ws K G F]; [contradiction|]. destruct G; cbn [app String.eqb]; cbv zeta; (rewrite R; [reflexivity|]); cbn [append]; eauto.
Qed.
(** render_all without a directory for the output ends without an error and has not rendered anything; so it does when the designs cannot be listed or the directory cannot be made. *)
Theorem C98_silent_refuted fs ws rd out d : line fs ws -> worth fs "render_dir" rd -> worth fs "output_dir" out ->
  out = "" \/ canMake out = false \/ files d rd "hfd" = None -> main ("render_all" :: ws) d = Ok (d, Done).
Proof.
  intros L W1 W2 H. destruct (parse_line fs ws L) as (s & P & V). apply V in W1, W2. unfold CommandLine.main. rewrite P. cbn [String.eqb Ascii.eqb Bool.eqb]. rewrite W1, W2, RenderDir_none by tauto. reflexivity.
Qed.
(** diff_test prints no number and renders nothing when the designs cannot be listed or the directory for the output cannot be made. *)
Theorem C98_nothing_refuted fs ws rd od out d : line fs ws -> worth fs "render_dir" rd -> worth fs "output_dir" od -> out = od /\ od <> "" \/ out = temp /\ od = "" ->
  canMake out = false \/ files d rd "hfd" = None -> main ("diff_test" :: ws) d = Ok (d, Done).
Proof.
  intros L W1 W2 O H. destruct (parse_line fs ws L) as (s & P & V). apply V in W1, W2.
  assert (EO : (if String.eqb od "" then temp else od) = out). { destruct O as [[-> N]|[-> ->]]; [|reflexivity]. apply String.eqb_neq in N. now rewrite N. }
  unfold CommandLine.main. rewrite P. cbn [String.eqb Ascii.eqb Bool.eqb]. cbv zeta. rewrite W1, W2, EO, RenderDir_none by tauto. reflexivity.
Qed.
(** designs_updated removes the sheets first: when the designs cannot be listed afterwards, the old sheets are lost, and there is no error. *)
Theorem C98_lost_refuted fs ws olds d : line fs ws -> files d "designs_rendered" "svg" = Some olds -> (forall e, files e "designs" "hfd" = None) \/ canMake "designs_rendered" = false ->
  exists after, main ("designs_updated" :: ws) d = Ok (after, Done) /\ forall m, (In m olds -> after m = None) /\ (~ In m olds -> after m = d m).
Proof.
  intros L F1 F2. destruct (parse_line fs ws L) as (s & P & _). exists (fold_left remove olds d). split.
  - unfold CommandLine.main. rewrite P. cbn [String.eqb Ascii.eqb Bool.eqb]. unfold clearDir. rewrite F1. cbv zeta. rewrite RenderDir_none; [reflexivity|]. destruct F2 as [F2|F2]; auto.
  - intros m. revert d F1. assert (G : forall l x, (In m l -> fold_left remove l x m = None) /\ (~ In m l -> fold_left remove l x m = x m)); [|intros d _; apply G].
    induction l as [|n l IH]; intros x; [split; [intros []|reflexivity]|]. cbn [fold_left]. destruct (IH (remove x n)) as [I1 I2]. split.
    + intros [E|I]; [subst n|auto]. destruct (in_dec string_dec m l) as [I|I]; [auto|]. rewrite (I2 I). unfold remove. now rewrite String.eqb_refl.
    + intros N. rewrite I2 by (intros I; apply N; right; exact I). unfold remove. destruct (String.eqb_spec m n) as [-> |E]; [exfalso; apply N; left; reflexivity|reflexivity].
Qed.
(** diff_test counts no differences when the directory to compare is the one for the output (the old sheets are overwritten before they are compared), or cannot be listed. *)
Theorem C98_same_refuted fs ws cd od d after n : line fs ws -> worth fs "output_dir" od -> worth fs "compare_dir" cd -> main ("diff_test" :: ws) d = Ok (after, Counted n) ->
  (cd = od /\ od <> "" /\ (forall l, files after od "svg" = Some l -> oneEach l)) \/ files after cd "svg" = None -> n = 0%nat.
Proof.
  intros L W1 W2 E H. destruct (parse_line fs ws L) as (s & P & V). apply V in W1, W2. unfold CommandLine.main in E. rewrite P in E. cbn [String.eqb Ascii.eqb Bool.eqb] in E. cbv zeta in E. rewrite W1, W2 in E.
  destruct (RenderDir _ _ _ _ _ _ _ _) as [d'|]; [|discriminate]. injection E as -> <-. unfold compareDirs. destruct H as [(-> & N & U)|H]; [|now rewrite H].
  apply String.eqb_neq in N. rewrite N. destruct (files after od "svg") as [l|] eqn:F; [|reflexivity]. specialize (U l eq_refl).
  apply C79_count; [exact U|]. intros a b k Ia Ib Na Nb. now rewrite (U a b k).
Qed.
End Main.

(** Examples.  Two designs of which one renders to two sheets, and an old sheet. *)
Definition exBox := {| dp_dir := "designs/"; dp_name := "box"; dp_ext := "hfd" |}.
Definition exLow := {| dp_dir := "designs/shelf/"; dp_name := "low"; dp_ext := "hfd" |}.
Definition exSheets (p : string) : option (list string) := if String.eqb p "designs/box.hfd" then Some ["box"; "lid"] else if String.eqb p "designs/shelf/low.hfd" then Some ["low"] else None.
Definition exOld : disk := fun m => if String.eqb m "designs_rendered/box_000.svg" then Some "old box" else if String.eqb m "designs_rendered/gone_000.svg" then Some "gone" else None.
Definition exNames := ["designs_rendered/box_000.svg"; "designs_rendered/gone_000.svg"; "out/box_000.svg"; "out/box_001.svg"; "out/low_000.svg"].
Definition exFiles (d : disk) (dir e : string) : option (list string) :=
  if String.eqb e "hfd" then if hasSuffix (dir ++ "/") "designs/" || hasSuffix dir "designs/" then Some (map text [exBox; exLow]) else None
  else Some (filter (fun m => String.eqb (dirOf m) (dir ++ "/") && match d m with Some _ => true | None => false end) exNames).
Notation exMain := (main (fun _ => false) (fun s => s) exSheets exFiles (fun _ => true) "out").
Lemma exBox_shaped : shaped exBox.
Proof. split; [right; exists "designs"; reflexivity|]. repeat split; apply without_dec; reflexivity. Qed.
Lemma exLow_shaped : shaped exLow.
Proof. split; [right; exists "designs/shelf"; reflexivity|]. repeat split; apply without_dec; reflexivity. Qed.
Lemma exReady out : out <> "" -> out <> "." -> out <> "/" -> ready (fun s => s) exSheets (fun _ => true) [exBox; exLow] out out.
Proof.
  intros H0 H1 H2. split; [exact (Forall_cons _ exBox_shaped (Forall_cons _ exLow_shaped (Forall_nil _)))|]. do 5 (split; [auto|]). intros p q [<- |[<- |[]]] [<- |[<- |[]]]; cbn; intros; congruence.
Qed.
Lemma exLine : line [("path", "designs/box.hfd"); ("output_file", "out/box")] ["--path=designs/box.hfd"; "-output_file"; "out/box"; "--"; "-x"].
Proof.
  exists ["--path=designs/box.hfd"; "-output_file"; "out/box"], ["--"; "-x"]. split; [reflexivity|]. split; [|left; reflexivity].
  apply (flags_cons "path" "designs/box.hfd" ["--path=designs/box.hfd"]); [eexists; constructor|apply (two_dashes_eq "path" "designs/box.hfd")|].
  apply (flags_cons "output_file" "out/box" ["-output_file"; "out/box"] [] []); [eexists; constructor|apply (one_dash "output_file" "out/box")|constructor].
Qed.
Example C98_render_ex : exists after, exMain ["render"; "--path=designs/box.hfd"; "-output_file"; "out/box"; "--"; "-x"] exOld = Ok (after, Done) /\ savedAs "out/box" ["box"; "lid"] exOld after.
Proof.
  apply (C98_render (fun _ => false) (fun s => s) exSheets exFiles (fun _ => true) "out" _ _ (text exBox) "out/box" exBox "out/box" exOld exLine).
  - left. exists [], [("output_file", "out/box")]. split; [reflexivity|]. cbn. intuition discriminate.
  - left. exists [("path", "designs/box.hfd")], []. split; [reflexivity|]. intros [].
  - exact exBox_shaped.
  - left. reflexivity.
  - apply (by_text _ _ _ "out/" "box"); try apply without_dec; try reflexivity; [right; exists "out"; reflexivity|discriminate].
Qed.
Example C98_render_plain_ex : match exMain ["render"; "designs/box.hfd"] exOld with Ok (after, Done) => after "box_001.svg" = Some "lid" /\ after "box_002.svg" = None | _ => False end /\ exMain ["render"; "designs/none.hfd"] exOld = Ok (exOld, Exit).
Proof. repeat split. Qed.
Lemma exLineOut : line [("output_dir", "out")] ["-output_dir=out"].
Proof.
  exists ["-output_dir=out"], []. split; [reflexivity|]. split; [|exact I].
  apply (flags_cons "output_dir" "out" ["-output_dir=out"] [] []); [eexists; constructor|apply (one_dash_eq "output_dir" "out")|constructor].
Qed.
Lemma exWorthOut : worth [("output_dir", "out")] "output_dir" "out".
Proof. left. exists [], []. split; [reflexivity|]. intros []. Qed.
Lemma exWorthStd n v : n <> "output_dir" -> standard n v -> worth [("output_dir", "out")] n v.
Proof. intros H S. right. split; [|exact S]. intros [E|[]]. cbn in E. congruence. Qed.
Example C98_render_all_ex : exists after, exMain ["render_all"; "-output_dir=out"] exOld = Ok (after, Done) /\ savedIn exSheets "out" [exBox; exLow] exOld after.
Proof.
  apply (C98_render_all _ _ _ _ _ _ _ _ "designs/" "out" "out" [exBox; exLow] exOld exLineOut); [apply exWorthStd; [discriminate|constructor]|exact exWorthOut|reflexivity|].
  apply exReady; discriminate.
Qed.
Example C98_updated_ex : exists cleared after, exMain ["designs_updated"] exOld = Ok (after, Done) /\
  (forall m, cleared m = None /\ In m ["designs_rendered/box_000.svg"; "designs_rendered/gone_000.svg"] \/ cleared m = exOld m /\ ~ In m ["designs_rendered/box_000.svg"; "designs_rendered/gone_000.svg"]) /\
  savedIn exSheets "designs_rendered" [exBox; exLow] cleared after.
Proof.
  apply (C98_updated _ _ _ _ _ _ [] [] [exBox; exLow] ["designs_rendered/box_000.svg"; "designs_rendered/gone_000.svg"] exOld).
  - exists [], []. split; [reflexivity|]. split; [constructor|exact I].
  - reflexivity.
  - reflexivity.
  - apply exReady; discriminate.
Qed.
Example C98_diff_ex : (exists after n, exMain ["diff_test"; "-output_dir=out"] exOld = Ok (after, Counted n) /\ savedIn exSheets "out" [exBox; exLow] exOld after /\
    forall olds news, exFiles after "designs_rendered" "svg" = Some olds -> exFiles after "out" "svg" = Some news -> oneEach news ->
      (n = 0%nat <-> forall l r k, In l olds -> In r news -> named l k -> named r k -> content after l = content after r)) /\
  match exMain ["diff_test"] exOld with Ok (after, Counted n) => n = 1%nat /\ exFiles after "out" "svg" = Some ["out/box_000.svg"; "out/box_001.svg"; "out/low_000.svg"] | _ => False end.
Proof.
  split; [|split; reflexivity].
  apply (C98_diff _ _ _ _ _ _ _ _ "designs/" "out" "out" "designs_rendered" "out" [exBox; exLow] exOld exLineOut); [apply exWorthStd; [discriminate|constructor]|exact exWorthOut|apply exWorthStd; [discriminate|constructor]| |reflexivity|].
  - left. split; [reflexivity|discriminate].
  - apply exReady; discriminate.
Qed.
Example C98_wrong_ex : wrongLine ["-output_dir=out"; "--outfile"; "x"] /\ wrongLine ["-path"] /\ wrongLine ["---path"; "x"] /\
  exMain ["render_all"; "-output_dir=out"; "--outfile"; "x"] exOld = Ok (exOld, Exit) /\ exMain ["rendr"; "-output_dir=out"] exOld = Ok (exOld, Usage).
Proof.
  assert (W : wrongLine ["-output_dir=out"; "--outfile"; "x"]).
  { exists [("output_dir", "out")], ["-output_dir=out"], ["--outfile"; "x"]. split; [reflexivity|]. split.
    - apply (flags_cons "output_dir" "out" ["-output_dir=out"] [] []); [eexists; constructor|apply (one_dash_eq "output_dir" "out")|constructor].
    - apply (unknown "outfile" "x" ["--outfile"; "x"] []); [split; [discriminate|split; [apply without_dec; reflexivity|discriminate]]|intros [v H]; inversion H|apply (two_dashes "outfile" "x")]. }
  split; [exact W|]. split; [|split; [|split]].
  - exists [], [], ["-path"]. split; [reflexivity|]. split; [constructor|]. apply (no_value "path" "-"); [eexists; constructor|left; reflexivity].
  - exists [], [], ["---path"; "x"]. split; [reflexivity|]. split; [constructor|]. apply (no_name "path" "---"). right. right. reflexivity.
  - apply C98_wrong. exact W.
  - destruct (C98_wrong (fun _ => false) (fun s => s) exSheets exFiles (fun _ => true) "out" "rendr" ["-output_dir=out"] exOld) as (_ & _ & H). apply (H _ exLineOut). cbn. intuition discriminate.
Qed.
Example C98_alone_ex : exMain ["render"] exOld = Panic.
Proof. pose proof (C98_alone_refuted (fun _ => false) (fun s => s) exSheets exFiles (fun _ => true) "out" ["render"] exOld) as H. destruct (exMain ["render"] exOld) as [x| | |] eqn:E; [exfalso; now apply H|destruct H|reflexivity|destruct H]. Qed.
(** the design is not saved under out/box *)
Example C98_after_ex : exMain ["render"; "designs/box.hfd"; "-output_file=out/box"] exOld = exMain ["render"; "designs/box.hfd"] exOld /\
  match exMain ["render"; "designs/box.hfd"; "-output_file=out/box"] exOld with Ok (after, Done) => after "out/box_000.svg" = None /\ after "box_000.svg" = Some "box" | _ => False end.
Proof.
  split; [|split; reflexivity]. apply (C98_after_refuted _ _ _ _ _ _ exBox [("output_file", "out/box")] ["-output_file=out/box"] exOld exBox_shaped); [discriminate|].
  apply (flags_cons "output_file" "out/box" ["-output_file=out/box"] [] []); [eexists; constructor|apply (one_dash_eq "output_file" "out/box")|constructor].
Qed.
Example C98_before_ex : exMain ["render"; "-output_file=out/box"; "designs/box.hfd"] exOld = Ok (exOld, Exit).
Proof.
  apply (C98_before_refuted (fun _ => false) (fun s => s) exSheets exFiles (fun _ => true) "out" [("output_file", "out/box")] ["-output_file=out/box"] exBox exOld); [|discriminate| |discriminate|].
  - apply (flags_cons "output_file" "out/box" ["-output_file=out/box"] [] []); [eexists; constructor|apply (one_dash_eq "output_file" "out/box")|constructor].
  - cbn. intuition discriminate.
  - intros w [r ->]. reflexivity.
Qed.
Example C98_silent_ex : exMain ["render_all"] exOld = Ok (exOld, Done) /\ exMain ["render_all"; "-render_dir=none"; "-output_dir=out"] exOld = Ok (exOld, Done).
Proof.
  split; [|reflexivity]. apply (C98_silent_refuted _ _ _ _ _ _ [] [] "designs/" "" exOld); [|right; split; [intros []|constructor]|right; split; [intros []|constructor]|left; reflexivity].
  exists [], []. split; [reflexivity|]. split; [constructor|exact I].
Qed.
(** the same designs, once with another directory: one sheet differs *)
Example C98_same_ex : match exMain ["diff_test"; "-output_dir=designs_rendered"] exOld, exMain ["diff_test"] exOld with
  | Ok (after, Counted n), Ok (_, Counted k) => n = 0%nat /\ k = 1%nat /\ (forall l, exFiles after "designs_rendered" "svg" = Some l -> oneEach l) | _, _ => False end.
Proof.
  split; [reflexivity|]. split; [reflexivity|]. intros l H. cbn in H. inversion H. clear H H1. intros p q n [<- |[<- |[]]] [<- |[<- |[]]] H1 H2; try reflexivity; apply base_named in H1, H2; cbn in H1, H2; congruence.
Qed.
Example C98_nothing_ex : exMain ["diff_test"; "-render_dir=none"] exOld = Ok (exOld, Done).
Proof.
  apply (C98_nothing_refuted (fun _ => false) (fun s => s) exSheets exFiles (fun _ => true) "out" [("render_dir", "none")] ["-render_dir=none"] "none" "" "out" exOld); [|left; exists [], []; split; [reflexivity|intros []]|right; split; [cbn; intuition discriminate|constructor]|right; split; reflexivity|right; reflexivity].
  exists ["-render_dir=none"], []. split; [reflexivity|]. split; [|exact I]. apply (flags_cons "render_dir" "none" ["-render_dir=none"] [] []); [eexists; constructor|apply (one_dash_eq "render_dir" "none")|constructor].
Qed.
(** run where there is a directory designs_rendered and none called designs *)
Definition exGone (d : disk) (dir e : string) : option (list string) := if String.eqb e "hfd" then None else exFiles d dir e.
Example C98_lost_ex : exists after, main (fun _ => false) (fun s => s) exSheets exGone (fun _ => true) "out" ["designs_updated"] exOld = Ok (after, Done) /\
  exOld "designs_rendered/box_000.svg" = Some "old box" /\ after "designs_rendered/box_000.svg" = None.
Proof.
  destruct (C98_lost_refuted (fun _ => false) (fun s => s) exSheets exGone (fun _ => true) "out" [] [] ["designs_rendered/box_000.svg"; "designs_rendered/gone_000.svg"] exOld) as (after & E & H);
    [exists [], []; split; [reflexivity|]; split; [constructor|exact I]|reflexivity|left; reflexivity|].
  exists after. split; [exact E|]. split; [reflexivity|]. apply H. left. reflexivity.
Qed.
