(** C86, continued: numbers in other bases, grouped digits, flags, values of other kinds. *)
From Coq Require Import String Ascii List ZArith NArith Bool Arith Lia.
From Verif Require Import Num DynModel SvgParse SvgElement DynRead Prop_C86.
Import ListNotations.
Local Open Scope string_scope.

(** *** specification *)
(** the figure for a value, in small or capital letters *)
Definition figure (v : nat) (c : ascii) : Prop := get v "0123456789abcdef" = Some c \/ get v "0123456789ABCDEF" = Some c.
Inductive figures (b : nat) : string -> list nat -> Prop :=
| fig_last c v : v < b -> figure v c -> figures b (String c "") [v]
| fig_cons c s v vs : v < b -> figure v c -> figures b s vs -> figures b (String c s) (v :: vs).
Definition worth (b : nat) (vs : list nat) : Z := fold_left (fun z v => z * Z.of_nat b + Z.of_nat v)%Z vs 0%Z.
(** a base and what is written in front of its figures *)
Inductive marked : nat -> string -> Prop :=
| marked_b : marked 2 "0b" | marked_B : marked 2 "0B" | marked_o : marked 8 "0o" | marked_O : marked 8 "0O" | marked_x : marked 16 "0x" | marked_X : marked 16 "0X".
Inductive signed : string -> (Z -> Z) -> Prop := no_sign : signed "" (fun z => z) | plus_sign : signed "+" (fun z => z) | minus_sign : signed "-" Z.opp.
(** the same letters, each of them small or capital *)
Inductive sameLetters : string -> string -> Prop :=
| same_end : sameLetters "" ""
| same_small c w s : sameLetters w s -> sameLetters (String c w) (String c s)
| same_capital c d w s : (97 <= N_of_ascii c <= 122)%N -> N_of_ascii c = (N_of_ascii d + 32)%N -> sameLetters w s -> sameLetters (String c w) (String d s).
Definition words (b : bool) : list string := if b then ["true"; "t"; "yes"; "y"; "on"] else ["false"; "f"; "no"; "n"; "off"].

(** *** figures *)
Lemma figure_val v c : figure v c -> DynRead.digitVal c = Some (Z.of_nat v) /\ (v < 10 -> SvgParse.isDigit c = true) /\ negb (isBlank c) = true /\ Ascii.eqb c "_" = false /\ v < 16.
Proof.
  intros H. assert (L : v < 16). { destruct (le_lt_dec 16 v) as [G|G]; [|exact G]. exfalso. destruct H as [H|H]; do 16 (destruct v as [|v]; [lia|cbn [get] in H]); destruct v; discriminate H. }
  do 16 (destruct v as [|v]; [destruct H as [H|H]; cbn in H; injection H as <-; repeat split; intros; try reflexivity; lia|]). lia.
Qed.
Lemma digits_figures b s vs t : figures b s vs -> forall acc, digits (Z.of_nat b) acc (s ++ t) = digits (Z.of_nat b) (fold_left (fun z v => z * Z.of_nat b + Z.of_nat v)%Z vs acc) t.
Proof.
  induction 1 as [c v Hv HF|c s v vs Hv HF _ IH]; intros acc; destruct (figure_val _ _ HF) as (E & _ & _ & U & _); cbn [append digits fold_left]; rewrite U, E; (assert (L : (Z.of_nat v <? Z.of_nat b)%Z = true) by (apply Z.ltb_lt; lia)); rewrite L; [reflexivity|apply IH].
Qed.
Lemma digits_groups b gs vss : Forall2 (figures b) gs vss -> gs <> [] -> forall acc, digits (Z.of_nat b) acc (joined "_" gs) = Some (fold_left (fun z v => z * Z.of_nat b + Z.of_nat v)%Z (concat vss) acc).
Proof.
  induction 1 as [|g vs gs vss HF H IH]; intros NE acc; [congruence|]. destruct gs as [|g' gs].
  - inversion H; subst. cbn [joined concat]. rewrite List.app_nil_r. rewrite <- (append_nil g). rewrite (digits_figures b g vs "" HF). reflexivity.
  - cbn [joined concat]. rewrite (digits_figures b g vs _ HF). rewrite fold_left_app. change ("_" ++ joined "_" (g' :: gs)) with (String "_" (joined "_" (g' :: gs))). cbn [digits]. change (Ascii.eqb "_" "_") with true. cbn iota. apply IH. discriminate.
Qed.
Definition figureOk (hex : bool) (c : ascii) : bool := SvgParse.isDigit c || hex && match DynRead.digitVal c with Some v => (v <? 16)%Z | None => false end.
Lemma figure_ok b hex v c : v < b -> b <= 10 \/ hex = true -> figure v c -> figureOk hex c = true.
Proof.
  intros Hv HB HF. destruct (figure_val _ _ HF) as (E & D & _ & _ & L). unfold figureOk. destruct (Nat.lt_ge_cases v 10) as [G|G]; [rewrite (D G); reflexivity|]. destruct HB as [HB| ->]; [lia|]. rewrite E. replace (Z.of_nat v <? 16)%Z with true; [apply orb_true_r|]. symmetry. apply Z.ltb_lt. lia.
Qed.
Lemma underscores_figures b hex s vs t : b <= 10 \/ hex = true -> figures b s vs -> forall saw, underscores hex saw (s ++ t) = underscores hex true t.
Proof.
  intros HB. induction 1 as [c v Hv HF|c s v vs Hv HF _ IH]; intros saw; destruct (figure_val _ _ HF) as (_ & _ & _ & U & _); pose proof (figure_ok b hex v c Hv HB HF) as OK; unfold figureOk in OK; cbn [append underscores]; rewrite U, OK; [reflexivity|apply IH].
Qed.
Lemma underscores_groups b hex gs vss : b <= 10 \/ hex = true -> Forall2 (figures b) gs vss -> gs <> [] -> forall saw, underscores hex saw (joined "_" gs) = true.
Proof.
  intros HB. induction 1 as [|g vs gs vss HF H IH]; intros NE saw; [congruence|]. destruct gs as [|g' gs].
  - cbn [joined]. rewrite <- (append_nil g), (underscores_figures b hex g vs "" HB HF). reflexivity.
  - change (joined "_" (g :: g' :: gs)) with (g ++ "_" ++ joined "_" (g' :: gs)). rewrite (underscores_figures b hex g vs _ HB HF). change ("_" ++ joined "_" (g' :: gs)) with (String "_" (joined "_" (g' :: gs))). specialize (IH ltac:(discriminate) false).
    assert (R : exists c u v, joined "_" (g' :: gs) = String c u /\ v < b /\ figure v c). { inversion H as [|? ? ? ? HF' _]; subst. inversion HF'; subst; destruct gs; cbn [joined append]; eauto 8. }
    destruct R as (c & u & v & E & Hv & HC). rewrite E in *. pose proof (figure_ok b hex v c Hv HB HC) as OK.
    change (underscores hex true (String "_" (String c u))) with (figureOk hex c && underscores hex false (String c u)). rewrite OK, IH. reflexivity.
Qed.
Lemma groups_plain b gs vss : Forall2 (figures b) gs vss -> every (fun c => negb (isBlank c)) (joined "_" gs) = true.
Proof.
  assert (G : forall s vs, figures b s vs -> every (fun c => negb (isBlank c)) s = true) by (induction 1 as [c v _ HF|c s v vs _ HF _ IH]; destruct (figure_val _ _ HF) as (_ & _ & B & _); cbn [every]; rewrite B; auto).
  induction 1 as [|g vs gs vss HF H IH]; [reflexivity|]. destruct gs as [|g' gs]; [exact (G _ _ HF)|]. cbn [joined]. rewrite every_app, (G _ _ HF). cbn [andb]. rewrite every_app. exact IH.
Qed.
Lemma groups_long b gs vss : Forall2 (figures b) gs vss -> gs <> [] -> exists c u, joined "_" gs = String c u.
Proof. destruct 1 as [|g vs gs vss HF H]; [congruence|intros _]. inversion HF; subst; destruct gs; cbn [joined append]; eauto. Qed.
Lemma parse_marked b m gs vss : marked b m -> Forall2 (figures b) gs vss -> gs <> [] -> parseUint (m ++ joined "_" gs) = Some (worth b (concat vss)).
Proof.
  intros M H NE. pose proof (fun hex HB => underscores_groups b hex gs vss HB H NE true) as HU. pose proof (digits_groups b gs vss H NE 0%Z) as HD. destruct (groups_long b gs vss H NE) as (c & u & E). rewrite E in *. unfold worth. rewrite <- HD.
  assert (PU : parseUint (m ++ String c u) = if underscores (Nat.eqb b 16) true (String c u) then digits (Z.of_nat b) 0 (String c u) else None) by (destruct M; reflexivity).
  rewrite PU, HU; [reflexivity|]. destruct M; ((left; lia) || (right; reflexivity)).
Qed.
Lemma parse_signed sg f t z : signed sg f -> (exists c u, t = String c u /\ c <> "+"%char /\ c <> "-"%char) -> parseUint t = Some z -> parseInt (sg ++ t) = if ((minInt64 <=? f z) && (f z <? - minInt64))%Z then Some (f z) else None.
Proof.
  intros S (c & u & -> & N1 & N2) E. unfold parseInt. destruct S; cbn [append]; [|rewrite E; reflexivity|rewrite E; reflexivity].
  assert (X : (match String c u with String "-" r => (true, r) | String "+" r => (false, r) | _ => (false, String c u) end) = (false, String c u)) by (destruct c as [[] [] [] [] [] [] [] []]; try reflexivity; congruence). rewrite X, E. reflexivity.
Qed.

(** An integer written in base 2, 8 or 16 with the mark of the base, or in decimal without one, with a sign or without, with underscores between groups of figures or without, is
    read as the integer that the figures stand for, if it fits into 64 bits. *)
Theorem C86_bases h a key b1 b2 sg f b m gs vss : blanks b1 -> blanks b2 -> signed sg f -> gs <> [] -> Forall2 (figures b) gs vss ->
  marked b m \/ m = "" /\ b = 10 /\ hd_error (concat vss) <> Some 0 -> Get h a key = Some (VStr (b1 ++ (sg ++ m ++ joined "_" gs) ++ b2)) ->
  let z := f (worth b (concat vss)) in (int64 z -> GetInt h a key = Some z) /\ (~ int64 z -> GetInt h a key = None).
Proof.
  intros B1 B2 S NE H M E z. unfold GetInt. rewrite E. unfold ToInt64.
  assert (PL : every (fun c => negb (isBlank c)) (sg ++ m ++ joined "_" gs) = true).
  { rewrite !every_app, (groups_plain b gs vss H), andb_true_r. destruct S; (destruct M as [M|(-> & _)]; [destruct M|]); reflexivity. }
  rewrite trim_around by assumption.
  assert (PU : parseUint (m ++ joined "_" gs) = Some (worth b (concat vss)) /\ exists c u, m ++ joined "_" gs = String c u /\ c <> "+"%char /\ c <> "-"%char).
  { destruct M as [M|(-> & -> & HZ)]; [split; [apply parse_marked; assumption|destruct M; cbn [append]; do 2 eexists; repeat split; discriminate]|]. cbn [append].
    pose proof (underscores_groups 10 false gs vss (or_introl (le_n 10)) H NE false) as HU. pose proof (digits_groups 10 gs vss H NE 0%Z) as HD. unfold worth. rewrite <- HD.
    assert (C : exists c u v, joined "_" gs = String c u /\ v < 10 /\ v <> 0 /\ figure v c).
    { destruct H as [|g vs gs' vss' HF H]; [congruence|]. inversion HF; subst; cbn [concat List.app hd_error] in HZ; destruct gs'; cbn [joined append]; do 3 eexists; (split; [reflexivity|]); (split; [eassumption|]); split; eauto; congruence. }
    destruct C as (c & u & v & EC & Hv & Hv0 & HF). rewrite EC in *. clear -HU HF Hv Hv0. unfold parseUint. do 10 (destruct v as [|v]; [destruct HF as [HF|HF]; cbn in HF; injection HF as <-; (lia || (split; [rewrite HU; reflexivity|do 2 eexists; repeat split; discriminate]))|]). lia. }
  destruct PU as [PU PC]. rewrite (parse_signed sg f _ _ S PC PU). fold z. unfold int64, minInt64. destruct (Z.leb_spec (- 2 ^ 63) z), (Z.ltb_spec z (- - 2 ^ 63)); cbn [andb]; split; intros HI; try reflexivity; lia.
Qed.
Example C86_bases_ex : let h := mkHeap 1 (fun _ => [("n", VStr " +0xfF_0a "); ("m", VStr "-1_000"); ("b", VStr "0B101")]) in GetInt h 0 "n" = Some 65290%Z /\ GetInt h 0 "m" = Some (-1000)%Z /\ GetInt h 0 "b" = Some 5%Z /\
  Forall2 (figures 16) ["fF"; "0a"] [[15; 15]; [0; 10]] /\ worth 16 (concat [[15; 15]; [0; 10]]) = 65290%Z /\ marked 16 "0x" /\ signed "+" (fun z => z).
Proof. repeat (split; [reflexivity|]). split; [|split; [reflexivity|split; constructor]]. repeat constructor; try lia; (left; reflexivity) || (right; reflexivity). Qed.

(** Misplaced underscores are refused: in front of the figures, after them, and two in a row. *)
Lemma under_last hex a : forall saw, underscores hex saw (a ++ "_") = false.
Proof. induction a as [|c a IH]; intros saw; cbn [append underscores]; [change (Ascii.eqb "_" "_") with true; cbn iota; apply andb_false_iff; left; apply andb_false_r|]. rewrite !IH. destruct (Ascii.eqb c "_"); [apply andb_false_r|reflexivity]. Qed.
Lemma under_twice hex a b : forall saw, underscores hex saw (a ++ "__" ++ b) = false.
Proof.
  induction a as [|c a IH]; intros saw.
  - change ("" ++ "__" ++ b) with (String "_" (String "_" b)). destruct saw, hex; reflexivity.
  - cbn [append underscores]. rewrite !IH. destruct (Ascii.eqb c "_"); [apply andb_false_r|reflexivity].
Qed.
Lemma parse_refused bad : (forall hex a saw, underscores hex saw (a ++ bad) = false) -> String.length bad <> 0 -> hd_error (list_ascii_of_string bad) = Some "_"%char -> forall a, parseUint (a ++ bad) = None.
Proof.
  intros H L HH a. assert (H0 : forall hex saw, underscores hex saw bad = false) by (intros; apply (H hex "")). destruct bad as [|x y]; [contradiction|]. cbn in HH. injection HH as ->.
  destruct a as [|c a]; [unfold parseUint; rewrite H0; reflexivity|].
  cbn [append]. assert (HC : forall hex saw, underscores hex saw (String c (a ++ String "_" y)) = false) by (intros hex saw; apply (H hex (String c a))).
  assert (HA : forall hex saw, underscores hex saw (a ++ String "_" y) = false) by (intros; apply H).
  unfold parseUint. destruct (Ascii.eqb_spec c "0") as [->|NC].
  - destruct a as [|d a].
    + cbn [append] in *. destruct y as [|e y]; [rewrite HA; reflexivity|]. change (lowerCh "_") with "_"%char. change (Ascii.eqb "_" "b") with false. change (Ascii.eqb "_" "o") with false. change (Ascii.eqb "_" "x") with false. cbn iota. rewrite HA. reflexivity.
    + cbn [append] in *. assert (HT : forall hex saw, underscores hex saw (a ++ String "_" y) = false) by (intros; apply H). destruct (a ++ String "_" y) as [|e t] eqn:E; [destruct a; discriminate|].
      destruct (if Ascii.eqb (lowerCh d) "b" then _ else _) as [b|]; [rewrite HT; reflexivity|rewrite HA; reflexivity].
  - assert (X : forall s, underscores false false (String c s) = false -> (match String c s with "" => None | String "0" _ => None | _ => if underscores false false (String c s) then digits 10 0 (String c s) else None end) = None) by (intros s E; rewrite E; destruct c as [[] [] [] [] [] [] [] []]; reflexivity).
    rewrite !HC. destruct c as [[] [] [] [] [] [] [] []]; try reflexivity. congruence.
Qed.
Lemma parse_int_refused bad a : (forall hex a saw, underscores hex saw (a ++ bad) = false) -> hd_error (list_ascii_of_string bad) = Some "_"%char -> parseInt (a ++ bad) = None.
Proof.
  intros H HH. assert (L : String.length bad <> 0) by (destruct bad; discriminate). pose proof (parse_refused bad H L HH) as P. unfold parseInt. destruct a as [|c a].
  - pose proof (P "") as P0. cbn [append] in *. destruct bad as [|x y]; [discriminate|]. cbn in HH. injection HH as ->. rewrite P0. reflexivity.
  - pose proof (P a) as P1. pose proof (P (String c a)) as P2. cbn [append] in *. destruct c as [[] [] [] [] [] [] [] []]; rewrite ?P1, ?P2; reflexivity.
Qed.
Lemma trim_plain s : every (fun c => negb (isBlank c)) s = true -> trim s = s.
Proof. intros H. pose proof (trim_around s "" "" H eq_refl eq_refl) as E. cbn [append] in E. rewrite append_nil in E. exact E. Qed.
Theorem C86_underscores u v sg f : every (fun c => negb (isBlank c)) (u ++ v) = true -> signed sg f ->
  ToInt64 (VStr (sg ++ "_" ++ u)) = None /\ ToInt64 (VStr (u ++ "_")) = None /\ ToInt64 (VStr (u ++ "__" ++ v)) = None.
Proof.
  rewrite every_app. intros P S. apply andb_true_iff in P as [P1 P2]. unfold ToInt64. rewrite !trim_plain; [|rewrite !every_app, P1; try rewrite P2; destruct S; reflexivity ..]. split; [|split].
  - unfold parseInt. destruct S; cbn [append]; reflexivity.
  - apply parse_int_refused; [intros; apply under_last|reflexivity].
  - apply (parse_int_refused ("__" ++ v)); [intros; apply under_twice|reflexivity].
Qed.
Example C86_underscores_ex : every (fun c => negb (isBlank c)) ("1" ++ "0x2") = true /\ ToInt64 (VStr "-_1") = None /\ ToInt64 (VStr "1_") = None /\ ToInt64 (VStr "1__2") = None /\ ToInt64 (VStr "1_2") = Some 12%Z.
Proof. repeat split. Qed.

(** A flag is one of these words, in small or capital letters, without blanks; or a truth value. *)
Lemma lower_iff c d : (97 <= N_of_ascii c <= 122)%N -> lowerCh d = c <-> c = d \/ N_of_ascii c = (N_of_ascii d + 32)%N.
Proof.
  intros HC. unfold lowerCh. cbv zeta. destruct (N.leb_spec 65 (N_of_ascii d)), (N.leb_spec (N_of_ascii d) 90); cbn [andb]; (split; [intros <-|intros [<-|E]]); auto; try lia.
  - right. apply N_ascii_embedding. lia.
  - rewrite <- E. apply ascii_N_embedding.
Qed.
Definition small (w : string) : Prop := forall c, In c (list_ascii_of_string w) -> (97 <= N_of_ascii c <= 122)%N.
Lemma lower_same s : forall w, small w -> lower s = w <-> sameLetters w s.
Proof.
  induction s as [|d s IH]; intros w SW; cbn [lower].
  - split; [intros <-; constructor|]. intros H. inversion H. reflexivity.
  - destruct w as [|c w]; [split; [discriminate|intros H; inversion H]|]. assert (SC : (97 <= N_of_ascii c <= 122)%N) by (apply SW; left; reflexivity). assert (SW' : small w) by (intros x I; apply SW; right; exact I). split.
    + intros E. assert (E1 : lowerCh d = c) by congruence. assert (E2 : lower s = w) by congruence. apply (lower_iff c d SC) in E1. apply (IH w SW') in E2. destruct E1 as [<-|E1]; constructor; assumption.
    + intros H. inversion H as [|? ? ? H1|? ? ? ? H1 H2 H3]; subst; f_equal; try (apply IH; assumption); apply lower_iff; auto.
Qed.
Lemma words_small b w : In w (words b) -> small w.
Proof. intros I c Ic. destruct b; cbn in I; repeat (destruct I as [<-|I]; [cbn in Ic; repeat (destruct Ic as [<-|Ic]; [vm_compute; split; discriminate|]); destruct Ic|]); destruct I. Qed.
Lemma words_lower s b : (exists w, In w (words b) /\ sameLetters w s) <-> existsb (String.eqb (lower s)) (words b) = true.
Proof.
  rewrite existsb_exists. split; intros (w & I & H); exists w; (split; [exact I|]); [apply String.eqb_eq; apply lower_same; eauto using words_small|]. apply lower_same; [eapply words_small; eauto|]. apply String.eqb_eq. exact H.
Qed.
Theorem C86_flags h a key v : Get h a key = Some v -> forall b, GetBool h a key = Some b <-> v = VBool b \/ exists w s, v = VStr s /\ In w (words b) /\ sameLetters w s.
Proof.
  intros E b. unfold GetBool. rewrite E. split.
  - intros H. destruct v as [|x|z|x|s|t|m|l|l|n]; cbn [ToBool] in H; try discriminate; [left; congruence|right].
    change ["true"; "t"; "yes"; "y"; "on"] with (words true) in H. change ["false"; "f"; "no"; "n"; "off"] with (words false) in H.
    destruct (existsb (String.eqb (lower s)) (words true)) eqn:E1; [injection H as <-; apply words_lower in E1 as (w & I & S); eauto|]. destruct (existsb (String.eqb (lower s)) (words false)) eqn:E2; [injection H as <-; apply words_lower in E2 as (w & I & S); eauto|discriminate].
  - intros [->|(w & s & -> & I & S)]; [reflexivity|]. cbn [ToBool]. change ["true"; "t"; "yes"; "y"; "on"] with (words true). change ["false"; "f"; "no"; "n"; "off"] with (words false).
    assert (EL : lower s = w) by (apply lower_same; [eapply words_small; eauto|exact S]). rewrite EL. destruct b; cbn in I; repeat (destruct I as [<-|I]; [reflexivity|]); destruct I.
Qed.
Example C86_flags_ex : let h := mkHeap 1 (fun _ => [("lid", VStr "Yes"); ("holes", VStr "1"); ("feet", VStr "oFF")]) in GetBool h 0 "lid" = Some true /\ GetBool h 0 "holes" = None /\ GetBool h 0 "feet" = Some false /\ sameLetters "yes" "Yes" /\ In "yes" (words true).
Proof. repeat (split; [reflexivity|]). split; [apply same_capital; [vm_compute; split; discriminate|reflexivity|]; repeat constructor|right; right; left; reflexivity]. Qed.

(** Where a delimiter is given, a list is read as without one; what is neither a text nor a list is no list. *)
Theorem C86_kinds show h a key delim v : Get h a key = Some v -> (forall s, v <> VStr s) ->
  GetIntSliceSplit h a key delim = GetIntSlice h a key /\ GetStringSliceSplit show h a key delim = GetStringSlice show h a key /\
  (forall l, v = VSlice l -> GetStringSlice show h a key = Some (map (ToText show) l)) /\ ((forall l, v <> VSlice l) -> GetIntSlice h a key = None /\ GetStringSlice show h a key = None).
Proof.
  intros E NS. unfold GetIntSliceSplit, GetStringSliceSplit, GetIntSlice, GetStringSlice. rewrite E. split; [|split; [|split]].
  - destruct v; try reflexivity. destruct (NS s eq_refl).
  - destruct v; try reflexivity. destruct (NS s eq_refl).
  - intros l ->. reflexivity.
  - intros NL. destruct v; try (split; reflexivity). destruct (NL l eq_refl).
Qed.
Example C86_kinds_ex : let h := mkHeap 1 (fun _ => [("ids", VSlice [VInt 4; VStr "5"]); ("n", VInt 7)]) in GetIntSliceSplit h 0 "ids" "," = Some [4; 5]%Z /\ GetIntSliceSplit h 0 "n" "," = None /\ GetStringSliceSplit (fun _ => "?") h 0 "n" "," = None /\ GetStringSliceSplit (fun _ => "?") h 0 "ids" "," = Some ["?"; "5"].
Proof. repeat split. Qed.
(** What is not a map is not put, and this is reported. *)
Theorem C86_put_nothing h a v : (forall m, v <> VMap m) -> (forall l, v <> VStrMap l) -> PutAll h a v = (h, false).
Proof. intros H1 H2. unfold PutAll. destruct v; try reflexivity; [destruct (H1 a0 eq_refl)|destruct (H2 l eq_refl)]. Qed.
Example C86_put_nothing_ex : PutAll shelf 0 (VSlice [VMap 1]) = (shelf, false). Proof. reflexivity. Qed.
Print Assumptions C86_bases. Print Assumptions C86_underscores. Print Assumptions C86_flags. Print Assumptions C86_kinds. Print Assumptions C86_put_nothing.
