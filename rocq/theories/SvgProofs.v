(** Proofs about printing a path as SVG text and reading it back (C02). *)
From Coq Require Import String Ascii List ZArith NArith Bool Lia.
From Verif Require Import Num PathModel DrawModel SvgParse PathSpec PathProofs TextProofs.
Import ListNotations.
Local Open Scope string_scope.

(** ** tokens *)
(** no letter next to a digit or dot, in either order: the two regex rewrites leave the text alone *)
Fixpoint calm (s : string) : bool :=
  match s with
  | "" => true
  | String c r => match r with
                  | "" => true
                  | String d _ => negb (isAlpha c && isNumCh d) && negb (isNumCh c && isAlpha d) && calm r
                  end
  end.

Definition plainCh (c : ascii) : bool :=
  negb (Ascii.eqb c "," || Ascii.eqb c "010" || Ascii.eqb c "009" || Ascii.eqb c "013").
Definition notSpace (c : ascii) : bool := negb (Ascii.eqb c " ").

Definition token (s : string) : Prop :=
  s <> "" /\ all_ch plainCh s = true /\ all_ch notSpace s = true /\ calm s = true.

Lemma calm_after s : calm s = true -> spaceAfterCmd s = s.
Proof.
  induction s as [|c r IH]; intros H; [reflexivity|]. destruct r as [|d t]; [reflexivity|].
  cbn [calm] in H. apply andb_prop in H as [H H3]. apply andb_prop in H as [H1 H2]. apply negb_true_iff in H1.
  cbn [spaceAfterCmd] in *. rewrite H1. f_equal. apply IH. exact H3.
Qed.
Lemma calm_before s : calm s = true -> spaceBeforeCmd s = s.
Proof.
  induction s as [|c r IH]; intros H; [reflexivity|]. destruct r as [|d t]; [reflexivity|].
  cbn [calm] in H. apply andb_prop in H as [H H3]. apply andb_prop in H as [H1 H2]. apply negb_true_iff in H2.
  cbn [spaceBeforeCmd] in *. rewrite H2. f_equal. apply IH. exact H3.
Qed.
Lemma plain_blanks s : all_ch plainCh s = true -> blanks s = s.
Proof.
  induction s as [|c r IH]; intros H; [reflexivity|]. cbn [all_ch] in H. apply andb_prop in H as [H1 H2].
  unfold plainCh in H1. apply negb_true_iff in H1. cbn [blanks]. rewrite H1. f_equal. auto.
Qed.

Lemma calm_join s t : calm s = true -> calm t = true -> calm (s ++ String " " t) = true.
Proof.
  intros Hs Ht. induction s as [|c r IH]; cbn [append].
  - cbn [calm]. destruct t as [|d t']; [reflexivity|]. cbn. exact Ht.
  - destruct r as [|d r'].
    + cbn [append calm]. rewrite !andb_false_r. cbn [negb andb].
      destruct t as [|d t']; [reflexivity|]. exact Ht.
    + cbn [append] in *. cbn [calm] in Hs. apply andb_prop in Hs as [H H3]. cbn [calm]. rewrite H. cbn [andb]. apply IH. exact H3.
Qed.

Fixpoint join (l : list string) : string :=
  match l with [] => "" | [s] => s | s :: r => s ++ String " " (join r) end.

Lemma join_concat l : join l = String.concat " " l.
Proof. induction l as [|s [|t r] IH]; [reflexivity|reflexivity|]. cbn [join String.concat] in *. rewrite IH. reflexivity. Qed.

Lemma items_loop_token s rest : all_ch notSpace s = true ->
  items_loop (s ++ rest) = let '(cur, l) := items_loop rest in (s ++ cur, l).
Proof.
  induction s as [|c r IH]; intros H; cbn [append].
  - destruct (items_loop rest). reflexivity.
  - cbn [all_ch] in H. apply andb_prop in H as [H1 H2]. cbn [items_loop]. rewrite IH by exact H2.
    destruct (items_loop rest) as [cur l]. unfold notSpace in H1. apply negb_true_iff in H1. rewrite H1. reflexivity.
Qed.

Lemma items_join l : Forall token l -> items (join l) = l.
Proof.
  intros H. assert (G : items_loop (join l) = match l with [] => ("", []) | s :: r => (s, r) end).
  { induction H as [|s r Hs Hr IH]; [reflexivity|]. destruct Hs as (Hn & Hp & Hsp & Hc).
    destruct r as [|t r'].
    - cbn [join]. rewrite <- (app_nil_s s) at 1. rewrite items_loop_token by exact Hsp. cbn. rewrite app_nil_s. reflexivity.
    - change (join (s :: t :: r')) with (s ++ String " " (join (t :: r'))). rewrite items_loop_token by exact Hsp.
      cbn [items_loop]. rewrite IH. rewrite Ascii.eqb_refl. rewrite app_nil_s.
      inversion Hr as [|? ? Ht _]; subst. destruct Ht as (Htn & _). destruct t; [congruence|reflexivity]. }
  unfold items. rewrite G. destruct l as [|s r]; [reflexivity|]. inversion H as [|? ? Hs _]; subst.
  destruct Hs as (Hn & _). destruct s; [congruence|reflexivity].
Qed.

Lemma join_props l : Forall token l -> all_ch plainCh (join l) = true /\ calm (join l) = true.
Proof.
  intros H. induction H as [|s r Hs Hr IH]; [split; reflexivity|]. destruct Hs as (Hn & Hp & Hsp & Hc), IH as [I1 I2].
  destruct r as [|t r']; [split; assumption|].
  change (join (s :: t :: r')) with (s ++ String " " (join (t :: r'))). split; [|apply calm_join; assumption].
  rewrite all_ch_app, Hp. cbn. exact I1.
Qed.

Lemma normalise_join l : Forall token l -> normalise (join l) = l.
Proof.
  intros H. unfold normalise. destruct (join_props l H) as [H1 H2].
  rewrite (plain_blanks _ H1), (calm_after _ H2), (calm_before _ H2). apply items_join. exact H.
Qed.

(** ** printed numbers are tokens *)
Lemma text_isDigit c : isDigit c = true -> plainCh c = true /\ notSpace c = true /\ isAlpha c = false.
Proof. destruct c as [[] [] [] [] [] [] [] []]; cbv; auto; discriminate. Qed.

Lemma noAlpha_calm s : all_ch (fun c => negb (isAlpha c)) s = true -> calm s = true.
Proof.
  induction s as [|c [|d r] IH]; intros H; [reflexivity|reflexivity|].
  cbn [all_ch] in H. apply andb_prop in H as [H1 H2].
  pose proof H2 as H3. apply andb_prop in H3 as [H3 _]. apply negb_true_iff in H1, H3.
  change (negb (isAlpha c && isNumCh d) && negb (isNumCh c && isAlpha d) && calm (String d r) = true).
  rewrite H1, H3, andb_false_r. cbn [andb negb]. apply IH. exact H2.
Qed.

Definition decCh (c : ascii) : bool := isDigit c || Ascii.eqb c "-" || Ascii.eqb c ".".
Lemma decCh_props c : decCh c = true -> plainCh c = true /\ notSpace c = true /\ negb (isAlpha c) = true.
Proof. destruct c as [[] [] [] [] [] [] [] []]; cbv; auto; discriminate. Qed.
Lemma digits_dec s : all_ch isDigit s = true -> all_ch decCh s = true.
Proof. apply all_ch_impl. intros c H. unfold decCh. rewrite H. reflexivity. Qed.

Lemma render_dec_chars n s m : all_ch decCh (render n (FTdec s m)) = true.
Proof.
  cbn [render]. rewrite !all_ch_app. rewrite (digits_dec _ (digits_int_digits _)).
  destruct s, n as [|n']; cbn [all_ch andb]; try reflexivity; rewrite (digits_dec _ (digits_pad_digits _ _)); reflexivity.
Qed.

Lemma render_nonempty n t : render n t <> "".
Proof.
  destruct t as [|[]|s m]; cbn; try discriminate. pose proof (digits_int_nonempty (m / 10 ^ N.of_nat n)) as H.
  destruct s; cbn; [discriminate|]. destruct (digits_int _); [congruence|discriminate].
Qed.

Lemma render_token n t : token (render n t).
Proof.
  split; [apply render_nonempty|]. destruct t as [|[]|s m]; try (repeat split; reflexivity).
  pose proof (render_dec_chars n s m) as H. repeat split.
  - eapply all_ch_impl; [|exact H]. intros c Hc. apply (decCh_props c Hc).
  - eapply all_ch_impl; [|exact H]. intros c Hc. apply (decCh_props c Hc).
  - apply noAlpha_calm. eapply all_ch_impl; [|exact H]. intros c Hc. apply (decCh_props c Hc).
Qed.

(** ** printed numbers read back *)
Lemma first_digit s : all_ch isDigit s = true -> s <> "" -> exists c r, s = String c r /\ isDigit c = true.
Proof. destruct s as [|c r]; [congruence|]. cbn. intros H _. apply andb_prop in H as [H _]. eauto. Qed.

Lemma readUnsigned_render neg n m :
  readUnsigned neg (render n (FTdec false m)) = Some (NTdec neg m (- Z.of_nat n)).
Proof.
  cbn [render]. cbn [append]. unfold readUnsigned.
  assert (Hp : (10 ^ N.of_nat n <> 0)%N) by (apply N.pow_nonzero; lia).
  destruct n as [|n'].
  - destruct (readDigits_int (m / 10 ^ N.of_nat 0) 0 "") as (k' & E & Hk). rewrite E. cbn [readDigits].
    replace (Nat.eqb (k' + 0) 0) with false by (symmetry; apply Nat.eqb_neq; lia).
    change (10 ^ N.of_nat 0)%N with 1%N. rewrite N.div_1_r. reflexivity.
  - set (n := S n') in *.
    destruct (readDigits_int (m / 10 ^ N.of_nat n) 0 (String "." (digits_pad n (m mod 10 ^ N.of_nat n) ""))) as (k' & E & Hk).
    rewrite E. cbn [readDigits isDigit N_of_ascii]. cbn.
    change (digits_pad n' _ _) with (digits_pad n (m mod 10 ^ N.of_nat n) "").
    rewrite <- (app_nil_s (digits_pad n _ "")), readDigits_pad. cbn [readDigits].
    replace (Nat.eqb (k' + (0 + n)) 0) with false by (symmetry; apply Nat.eqb_neq; lia).
    rewrite N.mod_mod by exact Hp. rewrite (N.mul_comm (m / _)), <- N.div_mod by exact Hp. reflexivity.
Qed.

Lemma digit_cases c : isDigit c = true ->
  c = "0"%char \/ c = "1"%char \/ c = "2"%char \/ c = "3"%char \/ c = "4"%char \/
  c = "5"%char \/ c = "6"%char \/ c = "7"%char \/ c = "8"%char \/ c = "9"%char.
Proof. destruct c as [[] [] [] [] [] [] [] []]; cbv; intros H; try discriminate; auto 12. Qed.

Lemma lower_digit_not_word c r : isDigit c = true -> isInfWord (lower (String c r)) = false /\ String.eqb (lower (String c r)) "nan" = false.
Proof.
  intros H. apply digit_cases in H. repeat destruct H as [H|H]; subst; split; reflexivity.
Qed.

Lemma render_pos_first n m : exists c r, render n (FTdec false m) = String c r /\ isDigit c = true.
Proof.
  cbn [render append]. destruct (first_digit _ (digits_int_digits (m / 10 ^ N.of_nat n)) (digits_int_nonempty _)) as (c & r & E & Hc).
  rewrite E. cbn [append]. eauto.
Qed.

Lemma readNumber_render n t : readNumber (render n t) =
  Some match t with FTdec s m => NTdec s m (- Z.of_nat n) | _ => NTspecial t end.
Proof.
  destruct t as [|[]|s m]; try reflexivity.
  destruct (render_pos_first n m) as (c & r & E & Hc). destruct (lower_digit_not_word c r Hc) as [H1 H2].
  destruct s.
  - change (render n (FTdec true m)) with (String "-" (render n (FTdec false m))). unfold readNumber.
    rewrite E, H1, <- E. apply readUnsigned_render.
  - transitivity (readUnsigned false (render n (FTdec false m))); [|apply readUnsigned_render].
    rewrite E. apply digit_cases in Hc. repeat destruct Hc as [Hc|Hc]; subst; reflexivity.
Qed.

Section Round.
Context {N : Num}.
Notation F := (T N).
Implicit Types (g h : seg N).

(** the float a printed coordinate is read back as *)
Definition readback (n : nat) (x : F) : option F :=
  match fmtd n x with
  | FTdec s m => ofdec s m (- Z.of_nat n)
  | t => ofspecial t
  end.

Lemma ToFloat64_fmt n (x : F) : ToFloat64 (fmt n x) = readback n x.
Proof. unfold ToFloat64, fmt, readback. rewrite readNumber_render. destruct (fmtd n x); reflexivity. Qed.

(** point [q] is what the printed [p] reads back as *)
Definition reads_pt (n : nat) (p q : Pt N) : Prop :=
  exists x y, readback n (px p) = Some x /\ readback n (py p) = Some y /\ q = NewPoint x y.
(** segment [h] is [g] read back: same kind, printed points read back *)
Definition reads_seg (n : nat) g h : Prop :=
  match g, h with
  | Move _ e, Move _ e' => reads_pt n e e'
  | Line _ e, Line _ e' => reads_pt n e e'
  | Curve _ cs e ce, Curve _ cs' e' ce' => reads_pt n cs cs' /\ reads_pt n ce ce' /\ reads_pt n e e'
  | _, _ => False
  end.
(** every printed coordinate can be read back *)
Definition readable_pt (n : nat) (p : Pt N) : Prop := readback n (px p) <> None /\ readback n (py p) <> None.
Definition readable (n : nat) g : Prop :=
  match g with
  | Move _ e => readable_pt n e
  | Line _ e => readable_pt n e
  | Curve _ cs e ce => readable_pt n cs /\ readable_pt n ce /\ readable_pt n e
  end.

Definition ptoks (n : nat) (p : Pt N) : list string := [fmt n (px p); fmt n (py p)].
Definition toks (n : nat) g : list string :=
  match g with
  | Move _ e => "M" :: ptoks n e
  | Line _ e => "L" :: ptoks n e
  | Curve _ cs e ce => "C" :: ptoks n cs ++ ptoks n ce ++ ptoks n e
  end%list.

Lemma join_app l : forall s r, l <> [] -> join (l ++ s :: r)%list = join l ++ String " " (join (s :: r)).
Proof.
  induction l as [|a [|b t] IH]; intros s r H; [congruence|reflexivity|].
  change ((a :: b :: t) ++ s :: r)%list with (a :: ((b :: t) ++ s :: r))%list.
  change (join (a :: ((b :: t) ++ s :: r))) with (a ++ String " " (join ((b :: t) ++ s :: r)%list)).
  rewrite (IH s r) by discriminate. change (join (a :: b :: t)) with (a ++ String " " (join (b :: t))).
  rewrite !app_assoc_s. reflexivity.
Qed.

Lemma segSvg_join n g : segSvg n g = join (toks n g).
Proof.
  destruct g; unfold segSvg, toks, ptoks, xyText, join; cbn [app]; repeat (rewrite ?app_assoc_s; cbn [append]); reflexivity.
Qed.
Lemma toks_cons n g : exists t r, toks n g = t :: r.
Proof. destruct g; cbn; eauto. Qed.

Lemma SvgString_join n (p : path N) : SvgString p n = join (flat_map (toks n) p).
Proof.
  unfold SvgString. induction p as [|g r IH]; [reflexivity|].
  destruct r as [|h r'].
  - cbn [map String.concat flat_map]. rewrite app_nil_r. apply segSvg_join.
  - change (String.concat " " (map (segSvg n) (g :: h :: r'))) with (segSvg n g ++ " " ++ String.concat " " (map (segSvg n) (h :: r'))).
    rewrite IH, segSvg_join. change (flat_map (toks n) (g :: h :: r')) with (toks n g ++ flat_map (toks n) (h :: r'))%list.
    assert (exists s t, flat_map (toks n) (h :: r') = s :: t) as (s & t & E).
    { cbn [flat_map]. destruct (toks_cons n h) as (s & t & ->). cbn. eauto. }
    rewrite E, join_app; [reflexivity|]. destruct (toks_cons n g) as (? & ? & ->). discriminate.
Qed.

Lemma toks_tokens n (p : path N) : Forall token (flat_map (toks n) p).
Proof.
  apply Forall_flat_map. apply Forall_forall. intros g _.
  assert (forall x : F, token (fmt n x)) by (intros; apply render_token).
  assert (token "M" /\ token "L" /\ token "C") as (? & ? & ?) by (repeat split; (discriminate || reflexivity)).
  destruct g; cbn [toks ptoks app]; repeat (first [apply Forall_nil|apply Forall_cons; [solve [auto]|]]).
Qed.

Lemma gnf1 (n : nat) (x a : F) k r : readback n x = Some a ->
  getNextFloats (S k) (fmt n x :: r) = match getNextFloats k r with Some (xs, r') => Some (a :: xs, r') | None => None end.
Proof. intros E. cbn [getNextFloats]. rewrite ToFloat64_fmt, E. reflexivity. Qed.

Lemma readable_pt_get n (p : Pt N) : readable_pt n p -> exists x y, readback n (px p) = Some x /\ readback n (py p) = Some y.
Proof.
  intros [H1 H2]. destruct (readback n (px p)) as [x|]; [|congruence]. destruct (readback n (py p)) as [y|]; [|congruence]. eauto.
Qed.

Lemma next_reads n g rest (d : path N) : readable n g ->
  exists h, next (toks n g ++ rest)%list d = Ok (rest, (d ++ [h])%list) /\ reads_seg n g h /\ sstart h = CurrentPosition d.
Proof.
  destruct g as [s e|s e|s cs e ce]; cbn [readable toks].
  - intros H. destruct (readable_pt_get _ _ H) as (x & y & Ex & Ey).
    cbn [app ptoks next]. rewrite (gnf1 _ _ _ _ _ Ex), (gnf1 _ _ _ _ _ Ey). cbn [getNextFloats].
    eexists; split; [reflexivity|]. split; [|reflexivity]. cbn. exists x, y. auto.
  - intros H. destruct (readable_pt_get _ _ H) as (x & y & Ex & Ey).
    cbn [app ptoks next]. rewrite (gnf1 _ _ _ _ _ Ex), (gnf1 _ _ _ _ _ Ey). cbn [getNextFloats].
    eexists; split; [reflexivity|]. split; [|reflexivity]. cbn. exists x, y. auto.
  - intros (H1 & H2 & H3). destruct (readable_pt_get _ _ H1) as (x1 & y1 & Ex1 & Ey1).
    destruct (readable_pt_get _ _ H2) as (x2 & y2 & Ex2 & Ey2). destruct (readable_pt_get _ _ H3) as (x3 & y3 & Ex3 & Ey3).
    cbn [app ptoks next]. rewrite (gnf1 _ _ _ _ _ Ex1), (gnf1 _ _ _ _ _ Ey1), (gnf1 _ _ _ _ _ Ex2), (gnf1 _ _ _ _ _ Ey2),
      (gnf1 _ _ _ _ _ Ex3), (gnf1 _ _ _ _ _ Ey3). cbn [getNextFloats].
    eexists; split; [reflexivity|]. split; [|reflexivity]. cbn. repeat split; eexists _, _; eauto.
Qed.

(** each segment starts exactly at the point where the pen is *)
Fixpoint linked (c : Pt N) (l : list (seg N)) : Prop :=
  match l with [] => True | g :: r => sstart g = c /\ linked (send g) r end.
Lemma linked_chain l : forall c, linked c l -> chain c l.
Proof.
  induction l as [|g r IH]; intros c H; [constructor|]. destruct H as [E H]. constructor; [left; congruence|auto].
Qed.

Lemma parse_loop_reads n p : forall fuel (d : path N), Forall (readable n) p -> (List.length (flat_map (toks n) p) <= fuel)%nat ->
  exists q, parse_loop fuel (flat_map (toks n) p) d = Ok (d ++ q)%list /\ Forall2 (reads_seg n) p q /\ linked (pen origin d) q.
Proof.
  induction p as [|g r IH]; intros fuel d H Hf.
  - exists []. rewrite app_nil_r. split; [destruct fuel; reflexivity|]. split; [constructor|exact I].
  - inversion H as [|? ? Hg Hr]; subst. cbn [flat_map] in *.
    destruct (next_reads n g (flat_map (toks n) r) d Hg) as (h & E & Hh & Hs).
    destruct (toks_cons n g) as (t & ts & Et). rewrite Et in *. cbn [app List.length] in Hf.
    destruct fuel as [|f]; [lia|]. cbn [parse_loop app]. change (t :: ts ++ flat_map (toks n) r)%list with ((t :: ts) ++ flat_map (toks n) r)%list.
    rewrite E. cbn [bind].
    destruct (IH f (d ++ [h])%list Hr ltac:(rewrite app_length in Hf; lia)) as (q & Eq & Hq & Hc).
    exists (h :: q). rewrite Eq, <- app_assoc. split; [reflexivity|]. split; [constructor; assumption|].
    rewrite pen_app in Hc. cbn [pen] in Hc. cbn [linked]. rewrite <- CurrentPosition_pen. split; [exact Hs|exact Hc].
Qed.

Lemma Parse_reads n (p : path N) : Forall (readable n) p ->
  exists q, ParsePathFromSvg (SvgString p n) = Ok q /\ Forall2 (reads_seg n) p q /\ linked origin q.
Proof.
  intros H. unfold ParsePathFromSvg. rewrite SvgString_join, normalise_join by apply toks_tokens.
  destruct (parse_loop_reads n p _ NewDraw H (le_n _)) as (q & E & Hq & Hc). exists q. rewrite E. auto.
Qed.
End Round.
