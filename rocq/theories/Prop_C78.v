(** C78: every sheet of every design that is rendered is saved in a file of its own, named after the design and the number of the sheet, and nothing else is touched. *)
From Coq Require Import String Ascii List NArith Arith Bool Lia.
From Verif Require Import Num SvgParse TextProofs Output.
Import ListNotations.
Local Open Scope string_scope.

(** Specification. The path of a design: a directory, a name and an extension. *)
Record docPath := { dp_dir : string; dp_name : string; dp_ext : string }.
Definition text (p : docPath) : string := dp_dir p ++ dp_name p ++ "." ++ dp_ext p.
Definition without (c : ascii) (s : string) : Prop := forall a b, s <> a ++ String c b.
Definition isDirText (s : string) : Prop := s = "" \/ exists t, s = t ++ "/".
Definition shaped (p : docPath) : Prop := isDirText (dp_dir p) /\ without "/" (dp_name p) /\ without "/" (dp_ext p) /\ without "." (dp_ext p).
(** three decimal digits or more, with the given value *)
Definition number (t : string) (i : N) : Prop := readDigits t 0 0 = (i, String.length t, "") /\ (3 <= String.length t)%nat /\ (i < 1000 -> String.length t = 3%nat)%N.

(** texts *)
Lemma length_append s t : String.length (s ++ t) = (String.length s + String.length t)%nat.
Proof. induction s; cbn; [|rewrite IHs]; reflexivity. Qed.
Lemma without_nil c : without c "".
Proof. intros a b; destruct a; discriminate. Qed.
Lemma without_cons c d s : without c (String d s) <-> d <> c /\ without c s.
Proof.
  split.
  - intros H. split; [intros ->; apply (H "" s); reflexivity|]. intros a b E. apply (H (String d a) b). cbn. now rewrite E.
  - intros [H1 H2] a b E. destruct a as [|e a]; cbn in E; inversion E; subst; [now apply H1|]. now apply (H2 a b).
Qed.
Lemma without_app c s t : without c (s ++ t) <-> without c s /\ without c t.
Proof.
  induction s as [|d s IH]; cbn [append].
  - split; [intros H; split; [apply without_nil|exact H]|now intros [_ H]].
  - rewrite !without_cons, IH. tauto.
Qed.
Lemma afterLast_none c s : without c s -> afterLast c s = None.
Proof.
  induction s as [|d s IH]; [reflexivity|]. rewrite without_cons. intros [H1 H2]. cbn [afterLast]. rewrite (IH H2).
  destruct (Ascii.eqb_spec d c); [contradiction|reflexivity].
Qed.
Lemma afterLast_app c a s : without c s -> afterLast c (a ++ String c s) = Some s.
Proof.
  intros H. induction a as [|d a IH]; cbn [append afterLast].
  - rewrite (afterLast_none c s H), Ascii.eqb_refl. reflexivity.
  - rewrite IH. reflexivity.
Qed.
Lemma app_nil_r_s s : s ++ "" = s.
Proof. induction s; cbn; [|rewrite IHs]; reflexivity. Qed.
Lemma app_neq a c b : a ++ String c b <> b.
Proof. intros E. apply (f_equal String.length) in E. revert E. rewrite length_append. cbn [String.length]. lia. Qed.
Lemma trimSuffix_app a b : trimSuffix (a ++ b) b = a.
Proof.
  induction a as [|c a IH]; cbn [append].
  - destruct b; cbn [trimSuffix]; rewrite ?String.eqb_refl; reflexivity.
  - cbn [trimSuffix]. destruct (String.eqb_spec (String c (a ++ b)) b) as [E|E].
    + exfalso. apply (f_equal String.length) in E. revert E. cbn [String.length]. rewrite length_append. lia.
    + rewrite IH. reflexivity.
Qed.
(** a text is cut at the last c in one way *)
Lemma split_last c a b x y : without c x -> without c y -> a ++ String c x = b ++ String c y -> a = b /\ x = y.
Proof.
  intros Hx Hy. revert b. induction a as [|d a IH]; intros [|e b] E; cbn in E.
  - inversion E. auto.
  - inversion E; subst. exfalso. apply (Hx b y). reflexivity.
  - inversion E; subst. exfalso. apply (Hy a x). reflexivity.
  - inversion E; subst. destruct (IH b H1) as [-> ->]. auto.
Qed.
Lemma app_inv_tail_s a b c : a ++ c = b ++ c -> a = b.
Proof. intros E. rewrite <- (trimSuffix_app a c), E. apply trimSuffix_app. Qed.

Lemma base_shaped p : shaped p -> base (text p) = dp_name p ++ "." ++ dp_ext p.
Proof.
  intros (Hd & Hn & He & Hx). unfold base, text.
  assert (W : without "/" (dp_name p ++ "." ++ dp_ext p)).
  { apply without_app. split; [exact Hn|]. apply without_cons. split; [discriminate|exact He]. }
  destruct Hd as [->|(t & ->)].
  - cbn [append]. rewrite afterLast_none by exact W. reflexivity.
  - rewrite app_assoc_s. cbn [append]. rewrite afterLast_app by exact W. reflexivity.
Qed.
Lemma ext_base n e : without "/" n -> without "/" e -> without "." e -> ext (n ++ "." ++ e) = "." ++ e.
Proof.
  intros Hn He Hx. unfold ext.
  assert (B : base (n ++ "." ++ e) = n ++ "." ++ e).
  { unfold base. rewrite afterLast_none; [reflexivity|]. apply without_app. split; [exact Hn|]. apply without_cons. split; [discriminate|exact He]. }
  rewrite B. cbn [append]. rewrite afterLast_app by exact Hx. reflexivity.
Qed.

(** The name of the files of a design: the directory for the output and the name of the design. *)
Theorem C78_name isDir clean out dir p : shaped p -> out <> "" -> isDir out = true -> clean out = dir -> dir <> "." -> dir <> "/" ->
  createFilename isDir clean out (text p) = dir ++ "/" ++ dp_name p /\ createFilename isDir clean "" (text p) = dp_name p.
Proof.
  intros HS H0 H1 H2 H3 H4. pose proof HS as (Hd & Hn & He & Hx). unfold createFilename. rewrite (base_shaped p HS), H1, H2.
  apply String.eqb_neq in H0. rewrite H0. cbn [String.eqb]. unfold joinDir.
  apply String.eqb_neq in H3, H4. rewrite H3, H4. rewrite (ext_base _ _ Hn He Hx). rewrite trimSuffix_app.
  split; [reflexivity|].
  assert (E : ext (text p) = "." ++ dp_ext p). { unfold ext. rewrite (base_shaped p HS). cbn [append]. rewrite afterLast_app by exact Hx. reflexivity. }
  rewrite E. apply trimSuffix_app.
Qed.
Definition boxPath := {| dp_dir := "/home/designs/"; dp_name := "box_name"; dp_ext := "hfd" |}.
Lemma without_dec c s : afterLast c s = None -> without c s.
Proof.
  intros H a b ->. revert H. induction a as [|d a IH]; cbn [append afterLast].
  - destruct (afterLast c b); [discriminate|]. rewrite Ascii.eqb_refl. discriminate.
  - destruct (afterLast c (a ++ String c b)); [discriminate|]. now destruct (IH eq_refl).
Qed.
Lemma box_shaped : shaped boxPath.
Proof. split; [right; exists "/home/designs"; reflexivity|]. repeat split; apply without_dec; reflexivity. Qed.
Example C78_name_ex : fileName (createFilename (fun _ => true) (fun _ => "/home/my_document") "/home/my_document/" (text boxPath)) 0 = "/home/my_document/box_name_000.svg".
Proof.
  destruct (C78_name (fun _ => true) (fun _ => "/home/my_document") "/home/my_document/" "/home/my_document" boxPath box_shaped) as [-> _]; try discriminate; reflexivity.
Qed.

(** An output that is not a directory is the name itself, without its extension. *)
Theorem C78_given isDir clean out p : shaped out -> dp_name out <> "" -> isDir (text out) = false ->
  createFilename isDir clean (text out) p = dp_dir out ++ dp_name out.
Proof.
  intros HS H0 H1. pose proof HS as (Hd & Hn & He & Hx). unfold createFilename. rewrite H1.
  assert (E0 : String.eqb (text out) "" = false). { apply String.eqb_neq. unfold text. destruct (dp_dir out); [|discriminate]. destruct (dp_name out); [contradiction|discriminate]. }
  rewrite E0. rewrite (base_shaped out HS).
  assert (E1 : String.eqb (dp_name out ++ "." ++ dp_ext out) "" = false). { apply String.eqb_neq. destruct (dp_name out); discriminate. }
  rewrite E1.
  assert (E : ext (text out) = "." ++ dp_ext out). { unfold ext. rewrite (base_shaped out HS). cbn [append]. rewrite afterLast_app by exact Hx. reflexivity. }
  rewrite E. unfold text. rewrite <- app_assoc_s. apply trimSuffix_app.
Qed.
Example C78_given_ex : createFilename (fun _ => false) (fun s => s) "out/my.box.svg" "designs/box.hfd" = "out/my.box".
Proof.
  apply (C78_given (fun _ => false) (fun s => s) {| dp_dir := "out/"; dp_name := "my.box"; dp_ext := "svg" |}); [|discriminate|reflexivity].
  split; [right; exists "out"; reflexivity|]. repeat split; apply without_dec; reflexivity.
Qed.

(** numbers *)
Lemma digitVal_lt c : isDigit c = true -> (digitVal c < 10)%N.
Proof. destruct c as [[] [] [] [] [] [] [] []]; cbn; try discriminate; intros _; reflexivity. Qed.
Lemma readDigits_len s : all_ch isDigit s = true -> forall v k, exists v', readDigits s v k = (v', (k + String.length s)%nat, "") /\ (v' < (v + 1) * 10 ^ N.of_nat (String.length s))%N.
Proof.
  induction s as [|c s IH]; intros H v k.
  - exists v. cbn. rewrite Nat.add_0_r. split; [reflexivity|lia].
  - cbn [all_ch] in H. apply andb_prop in H. destruct H as [H1 H2]. destruct (IH H2 (v * 10 + digitVal c)%N (S k)) as (v' & E & L).
    exists v'. cbn [readDigits String.length]. rewrite H1, E. split; [f_equal; f_equal; lia|].
    pose proof (digitVal_lt c H1). rewrite Nat2N.inj_succ, N.pow_succ_r'. nia.
Qed.
Lemma pad3_digits i : all_ch isDigit (pad3 i) = true.
Proof. unfold pad3. destruct (N.ltb i 1000); [apply digits_pad_digits|apply digits_int_digits]. Qed.
Lemma pad3_value i : fst (fst (readDigits (pad3 i) 0 0)) = i.
Proof.
  unfold pad3. destruct (N.ltb_spec i 1000) as [L|L].
  - pose proof (readDigits_pad 3 i 0 0 "") as E. rewrite app_nil_r_s in E. rewrite E. change (10 ^ N.of_nat 3)%N with 1000%N.
    rewrite N.mod_small by lia. reflexivity.
  - destruct (readDigits_int i 0 "") as (k & E & Hk). rewrite app_nil_r_s in E. rewrite E. reflexivity.
Qed.
Lemma pad3_number i : number (pad3 i) i.
Proof.
  destruct (readDigits_len (pad3 i) (pad3_digits i) 0 0) as (v & E & L). pose proof (pad3_value i) as V. rewrite E in V. cbn in V. subst v.
  unfold number. rewrite E. split; [reflexivity|]. unfold pad3 in *. destruct (N.ltb_spec i 1000) as [B|B].
  - assert (H : String.length (digits_pad 3 i "") = 3%nat) by reflexivity. rewrite H. lia.
  - split; [|lia]. destruct (Nat.le_gt_cases 3 (String.length (digits_int i))) as [?|G]; [assumption|exfalso].
    assert (H : (10 ^ N.of_nat (String.length (digits_int i)) <= 10 ^ 2)%N) by (apply N.pow_le_mono_r; lia). change (10 ^ 2)%N with 100%N in H. lia.
Qed.
Lemma without_digits c s : isDigit c = false -> all_ch isDigit s = true -> without c s.
Proof.
  intros Hc. induction s as [|d s IH]; intros H; [apply without_nil|]. cbn [all_ch] in H. apply andb_prop in H. destruct H as [H1 H2].
  apply without_cons. split; [|auto]. intros ->. congruence.
Qed.

(** The name of a sheet: the name of the design, an underscore, the number of the sheet with three digits or more. *)
Theorem C78_sheet_name b i : exists t, fileName b i = b ++ "_" ++ t ++ ".svg" /\ number t i.
Proof. exists (pad3 i). split; [reflexivity|apply pad3_number]. Qed.
Example C78_sheet_name_ex : fileName "box" 7 = "box_007.svg" /\ fileName "box" 1234 = "box_1234.svg".
Proof. split; reflexivity. Qed.

(** Different sheets have different names: names tell the design and the number, in files and in archives. *)
Theorem C78_distinct b b' i i' : (fileName b i = fileName b' i' -> b = b' /\ i = i') /\ (zipName b i = zipName b' i' -> b = b' /\ i = i').
Proof.
  split; intros E.
  - unfold fileName in E. assert (E1 : b ++ "_" ++ pad3 i = b' ++ "_" ++ pad3 i').
    { apply (app_inv_tail_s _ _ ".svg"). rewrite !app_assoc_s. exact E. }
    cbn [append] in E1. apply split_last in E1; [|apply without_digits; [reflexivity|apply pad3_digits]..].
    destruct E1 as [-> E2]. split; [reflexivity|]. rewrite <- (pad3_value i), E2. apply pad3_value.
  - unfold zipName in E. assert (E1 : b ++ "." ++ digits_int i = b' ++ "." ++ digits_int i').
    { apply (app_inv_tail_s _ _ ".svg"). rewrite !app_assoc_s. exact E. }
    cbn [append] in E1. apply split_last in E1; [|apply without_digits; [reflexivity|apply digits_int_digits]..].
    destruct E1 as [-> E2]. split; [reflexivity|]. now apply digits_int_inj.
Qed.
Example C78_distinct_ex : fileName "box_000" 1 <> fileName "box" 1 /\ zipName "box.1" 2 <> zipName "box" 12.
Proof. split; intros E; apply C78_distinct in E; destruct E; discriminate. Qed.

(** saving *)
Lemma saveFrom_other b sheets : forall d i m, (forall j, (i <= j)%N -> m <> fileName b j) -> saveFrom d b i sheets m = d m.
Proof.
  induction sheets as [|s r IH]; intros d i m H; [reflexivity|]. cbn [saveFrom]. rewrite IH; [|intros j L; apply H; lia].
  unfold write. destruct (String.eqb_spec m (fileName b i)) as [E|E]; [exfalso; apply (H i); [lia|exact E]|reflexivity].
Qed.
Lemma saveFrom_nth b sheets : forall d i k s, nth_error sheets k = Some s -> saveFrom d b i sheets (fileName b (i + N.of_nat k)) = Some s.
Proof.
  induction sheets as [|t r IH]; intros d i [|k] s H; cbn in H; try discriminate; cbn [saveFrom].
  - inversion H; subst t. rewrite saveFrom_other.
    + rewrite N.add_0_r. unfold write. rewrite String.eqb_refl. reflexivity.
    + intros j L E. apply C78_distinct in E. lia.
  - replace (i + N.of_nat (S k))%N with (N.succ i + N.of_nat k)%N by lia. apply IH. exact H.
Qed.
Lemma saveFrom_beyond b sheets d i j : (i + N.of_nat (List.length sheets) <= j)%N -> saveFrom d b i sheets (fileName b j) = d (fileName b j).
Proof.
  revert d i. induction sheets as [|t r IH]; intros d i L; [reflexivity|]. cbn [saveFrom List.length] in *. rewrite IH by lia.
  unfold write. destruct (String.eqb_spec (fileName b j) (fileName b i)) as [E|E]; [apply C78_distinct in E; lia|reflexivity].
Qed.

Section All.
Variable isDir : string -> bool.
Variable clean : string -> string.
Variable rendered : string -> option (list string).
Notation RenderAll := (RenderAll isDir clean rendered).

Lemma RenderAll_other out d files m : (forall p i, In p files -> rendered p <> None -> m <> fileName (createFilename isDir clean out p) i) -> RenderAll out d files m = d m.
Proof.
  revert d. induction files as [|p r IH]; intros d H; [reflexivity|]. cbn [Output.RenderAll]. rewrite IH; [|intros q i I; apply H; right; exact I].
  destruct (rendered p) as [sheets|] eqn:E; [|reflexivity]. apply saveFrom_other. intros j _. apply H; [left; reflexivity|congruence].
Qed.
Lemma RenderAll_saved out d files p sheets i s :
  In p files -> rendered p = Some sheets -> nth_error sheets i = Some s ->
  (forall q, In q files -> rendered q <> None -> createFilename isDir clean out q = createFilename isDir clean out p -> q = p) ->
  RenderAll out d files (fileName (createFilename isDir clean out p) (N.of_nat i)) = Some s.
Proof.
  revert d. induction files as [|q r IH]; intros d I R S U; [destruct I|]. cbn [Output.RenderAll].
  destruct (in_dec string_dec p r) as [J|J].
  - apply IH; auto. intros q' I'. apply U. right. exact I'.
  - destruct I as [->|I]; [|contradiction]. rewrite RenderAll_other.
    + rewrite R. apply (saveFrom_nth _ sheets d 0). exact S.
    + intros q' j I' R' E. apply C78_distinct in E. destruct E as [E _]. apply J. rewrite <- (U q'); auto. right. exact I'.
Qed.
End All.

(** Every sheet of every design that renders is saved under its name, whatever the other designs do, if no two designs have the same name;
    and no other file is written. *)
Theorem C78_saved isDir clean rendered out dir d docs :
  Forall shaped docs -> out <> "" -> isDir out = true -> clean out = dir -> dir <> "." -> dir <> "/" ->
  (forall p q, In p docs -> In q docs -> rendered (text p) <> None -> rendered (text q) <> None -> dp_name p = dp_name q -> p = q) ->
  let after := RenderAll isDir clean rendered out d (map text docs) in
  (forall p sheets i s, In p docs -> rendered (text p) = Some sheets -> nth_error sheets i = Some s ->
     exists t, number t (N.of_nat i) /\ after (dir ++ "/" ++ dp_name p ++ "_" ++ t ++ ".svg") = Some s) /\
  (forall m, after m <> d m -> exists p sheets i t, In p docs /\ rendered (text p) = Some sheets /\ (i < List.length sheets)%nat /\ number t (N.of_nat i) /\ m = dir ++ "/" ++ dp_name p ++ "_" ++ t ++ ".svg").
Proof.
  intros HS H0 H1 H2 H3 H4 U after. rewrite Forall_forall in HS.
  assert (CN : forall p, In p docs -> createFilename isDir clean out (text p) = dir ++ "/" ++ dp_name p).
  { intros p I. apply (C78_name isDir clean out dir p (HS p I)); assumption. }
  split.
  - intros p sheets i s I R S. exists (pad3 (N.of_nat i)). split; [apply pad3_number|].
    assert (E : fileName (createFilename isDir clean out (text p)) (N.of_nat i) = dir ++ "/" ++ dp_name p ++ "_" ++ pad3 (N.of_nat i) ++ ".svg").
    { rewrite (CN p I). unfold fileName. rewrite !app_assoc_s. reflexivity. }
    rewrite <- E. unfold after. apply (RenderAll_saved isDir clean rendered out d (map text docs) (text p) sheets i s); auto.
    + apply in_map. exact I.
    + intros q' I' R' E'. apply in_map_iff in I'. destruct I' as (q & <- & Iq). rewrite (CN p I), (CN q Iq) in E'. apply app_inv_head_s in E'.
      cbn [append] in E'. inversion E' as [E2]. f_equal. apply U; auto; congruence.
  - intros m. unfold after. clear after U. revert d. induction docs as [|p r IH]; intros d C; [exfalso; apply C; reflexivity|]. cbn [map Output.RenderAll] in C.
    set (d1 := match rendered (text p) with Some sheets => _ | None => d end) in C.
    assert (D : {d1 m = d m} + {d1 m <> d m}) by (repeat decide equality). destruct D as [D|D].
    + rewrite <- D in C. destruct (IH (fun q I => HS q (or_intror I)) (fun q I => CN q (or_intror I)) d1 C) as (q & sheets & i & t & I & R). exists q, sheets, i, t. split; [right; exact I|exact R].
    + clear C IH. unfold d1 in D. destruct (rendered (text p)) as [sheets|] eqn:R; [|contradiction].
      rewrite (CN p (or_introl eq_refl)) in D.
      assert (X : exists i, (i < List.length sheets)%nat /\ m = fileName (dir ++ "/" ++ dp_name p) (N.of_nat i)).
      { clear -D. unfold save in D. assert (G : forall l d k, saveFrom d (dir ++ "/" ++ dp_name p) k l m <> d m -> exists i, (i < List.length l)%nat /\ m = fileName (dir ++ "/" ++ dp_name p) (k + N.of_nat i)).
        { induction l as [|s l IH]; intros e k H; [contradiction|]. cbn [saveFrom] in H.
          destruct (String.eqb_spec m (fileName (dir ++ "/" ++ dp_name p) k)) as [E|E].
          - exists 0%nat. split; [cbn; lia|]. rewrite N.add_0_r. exact E.
          - destruct (IH (write e (fileName (dir ++ "/" ++ dp_name p) k) s) (N.succ k)) as (i & L & ->).
            + intros E2. apply H. rewrite E2. unfold write. apply String.eqb_neq in E. rewrite E. reflexivity.
            + exists (S i). split; [cbn; lia|]. f_equal. lia. }
        destruct (G sheets d 0%N D) as (i & L & E). exists i. split; [exact L|exact E]. }
      destruct X as (i & L & ->). exists p, sheets, i, (pad3 (N.of_nat i)). split; [left; reflexivity|]. split; [exact R|]. split; [exact L|]. split; [apply pad3_number|].
      unfold fileName. rewrite !app_assoc_s. reflexivity.
Qed.

Definition exDocs := [ {| dp_dir := "designs/shelf/"; dp_name := "low"; dp_ext := "hfd" |}; {| dp_dir := "designs/bad/"; dp_name := "low"; dp_ext := "hfd" |}; {| dp_dir := "designs/"; dp_name := "box"; dp_ext := "hfd" |} ].
(** the second design does not render; the others are saved *)
Definition exRendered (p : string) : option (list string) := if String.eqb p "designs/bad/low.hfd" then None else if String.eqb p "designs/box.hfd" then Some ["<svg>box</svg>"; "<svg>lid</svg>"] else Some ["<svg>shelf</svg>"].
Lemma exDocs_shaped : Forall shaped exDocs.
Proof.
  apply Forall_cons; [|apply Forall_cons; [|apply Forall_cons; [|apply Forall_nil]]]; (split; [right|repeat split; apply without_dec; reflexivity]);
    [exists "designs/shelf"|exists "designs/bad"|exists "designs"]; reflexivity.
Qed.
Example C78_saved_ex : RenderAll (fun _ => true) (fun _ => "out") exRendered "out/" (fun _ => None) (map text exDocs) "out/box_001.svg" = Some "<svg>lid</svg>" /\
  (exists t, number t 0 /\ RenderAll (fun _ => true) (fun _ => "out") exRendered "out/" (fun _ => None) (map text exDocs) ("out" ++ "/" ++ "low" ++ "_" ++ t ++ ".svg") = Some "<svg>shelf</svg>").
Proof.
  split; [reflexivity|].
  refine (proj1 (C78_saved (fun _ => true) (fun _ => "out") exRendered "out/" "out" (fun _ => None) exDocs exDocs_shaped _ _ _ _ _ _) {| dp_dir := "designs/shelf/"; dp_name := "low"; dp_ext := "hfd" |} ["<svg>shelf</svg>"] 0%nat _ _ _ _); try discriminate; try reflexivity.
  - intros p q [<-|[<-|[<-|[]]]] [<-|[<-|[<-|[]]]]; cbn; intros; congruence.
  - left; reflexivity.
Qed.

(** The archive has one entry for each sheet, all with different names. *)
Theorem C78_zip b sheets : List.length (RenderZip b sheets) = List.length sheets /\ NoDup (map fst (RenderZip b sheets)) /\
  (forall i s, nth_error sheets i = Some s -> nth_error (RenderZip b sheets) i = Some (b ++ "." ++ digits_int (N.of_nat i) ++ ".svg", s)).
Proof.
  unfold RenderZip. change (forall i s, nth_error sheets i = Some s -> nth_error (zipFrom b 0 sheets) i = Some (b ++ "." ++ digits_int (N.of_nat i) ++ ".svg", s))
    with (forall i s, nth_error sheets i = Some s -> nth_error (zipFrom b 0 sheets) i = Some (b ++ "." ++ digits_int (0 + N.of_nat i) ++ ".svg", s)).
  generalize 0%N. induction sheets as [|s r IH]; intros k; cbn [zipFrom List.length map fst].
  - split; [reflexivity|]. split; [constructor|]. intros [|i] s; discriminate.
  - destruct (IH (N.succ k)) as (H1 & H2 & H3). split; [now rewrite H1|]. split.
    + constructor; [|exact H2]. clear -r. assert (G : forall l j, (k < j)%N -> ~ In (zipName b k) (map fst (zipFrom b j l))).
      { induction l as [|t l IH]; intros j L I; [exact I|]. destruct I as [E|I].
        - cbn [fst] in E. apply C78_distinct in E. lia.
        - apply (IH (N.succ j)); [lia|exact I]. }
      apply G. lia.
    + intros [|i] t E; cbn in E.
      * inversion E; subst. rewrite N.add_0_r. reflexivity.
      * cbn [nth_error]. rewrite (H3 i t E). replace (N.succ k + N.of_nat i)%N with (k + N.of_nat (S i))%N by lia. reflexivity.
Qed.
Example C78_zip_ex : RenderZip "box" ["a"; "b"] = [("box.0.svg", "a"); ("box.1.svg", "b")].
Proof. reflexivity. Qed.

(** The designs of a directory are the files whose path ends with the extension. *)
Theorem C78_files tree e p : In p (FileList tree e) <-> In p tree /\ exists q, p = q ++ e.
Proof.
  unfold FileList. rewrite filter_In. apply and_iff_compat_l. split.
  - induction p as [|c p IH]; cbn [hasSuffix]; intros H; apply orb_prop in H; destruct H as [H|H].
    + apply String.eqb_eq in H. exists "". exact H.
    + discriminate.
    + apply String.eqb_eq in H. exists "". exact H.
    + destruct (IH H) as (q & ->). exists (String c q). reflexivity.
  - intros (q & ->). induction q as [|c q IH]; cbn [append].
    + destruct e; cbn [hasSuffix]; rewrite String.eqb_refl; reflexivity.
    + cbn [hasSuffix]. rewrite IH. apply orb_true_r.
Qed.
Example C78_files_ex : FileList ["designs/box.hfd"; "designs/readme.md"; "designs/hfd"; "designs/box.hfd~"] "hfd" = ["designs/box.hfd"; "designs/hfd"].
Proof. reflexivity. Qed.

(** REFUTED: designs of the same name in two directories have the same files. The sheet of the first is nowhere after the second was saved. *)
Theorem C78_same_refuted isDir clean rendered out p q s t :
  shaped p -> shaped q -> dp_name p = dp_name q -> rendered (text p) = Some [s] -> rendered (text q) = Some [t] -> s <> t -> out <> "" -> isDir out = true -> clean out <> "." -> clean out <> "/" ->
  forall m, RenderAll isDir clean rendered out (fun _ => None) [text p; text q] m <> Some s.
Proof.
  intros Hp Hq E Rp Rq D H0 H1 H3 H4 m. cbn [RenderAll]. rewrite Rp, Rq.
  destruct (C78_name isDir clean out (clean out) p Hp H0 H1 eq_refl H3 H4) as [-> _]. destruct (C78_name isDir clean out (clean out) q Hq H0 H1 eq_refl H3 H4) as [-> _].
  rewrite E. cbn [save saveFrom]. unfold write. destruct (String.eqb m _); [congruence|discriminate].
Qed.
Example C78_same_ex : let after := RenderAll (fun _ => true) (fun _ => "out") (fun p => Some [p]) "out" (fun _ => None) ["designs/shelf/low.hfd"; "designs/table/low.hfd"] in
  after "out/low_000.svg" = Some "designs/table/low.hfd" /\ forall m, after m <> Some "designs/shelf/low.hfd".
Proof.
  split; [reflexivity|].
  apply (C78_same_refuted (fun _ => true) (fun _ => "out") (fun p => Some [p]) "out" {| dp_dir := "designs/shelf/"; dp_name := "low"; dp_ext := "hfd" |} {| dp_dir := "designs/table/"; dp_name := "low"; dp_ext := "hfd" |} "designs/shelf/low.hfd" "designs/table/low.hfd"); try discriminate; try reflexivity.
  - split; [right; exists "designs/shelf"; reflexivity|]. repeat split; apply without_dec; reflexivity.
  - split; [right; exists "designs/table"; reflexivity|]. repeat split; apply without_dec; reflexivity.
Qed.

(** REFUTED: the sheets that are found for a design are those of its last rendering. A design that has fewer sheets than before keeps the old ones. *)
Theorem C78_stale_refuted isDir clean rendered out p old new i s :
  rendered p = Some new -> nth_error old i = Some s -> (List.length new <= i)%nat ->
  let before := RenderAll isDir clean (fun _ => Some old) out (fun _ => None) [p] in
  RenderAll isDir clean rendered out before [p] (fileName (createFilename isDir clean out p) (N.of_nat i)) = Some s.
Proof.
  intros R S L before. unfold before. cbn [RenderAll]. rewrite R. unfold save. rewrite saveFrom_beyond by lia.
  apply (saveFrom_nth _ old (fun _ => None) 0 i s S).
Qed.
Example C78_stale_ex : let before := RenderAll (fun _ => true) (fun _ => "out") (fun _ => Some ["one"; "two"]) "out" (fun _ => None) ["box.hfd"] in
  RenderAll (fun _ => true) (fun _ => "out") (fun _ => Some ["three"]) "out" before ["box.hfd"] "out/box_001.svg" = Some "two".
Proof. exact (C78_stale_refuted (fun _ => true) (fun _ => "out") (fun _ => Some ["three"]) "out" "box.hfd" ["one"; "two"] ["three"] 1 "two" eq_refl eq_refl (le_n 1)). Qed.
