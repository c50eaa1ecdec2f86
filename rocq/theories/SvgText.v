(** How the text of a path falls into items (C58). *)
From Coq Require Import String Ascii List ZArith NArith Bool Lia.
From Verif Require Import Num PathModel DrawModel SvgParse PathSpec PathProofs TextProofs SvgProofs.
Import ListNotations.
Local Open Scope string_scope.

Definition blankCh (c : ascii) : bool := Ascii.eqb c " " || Ascii.eqb c "," || Ascii.eqb c "010" || Ascii.eqb c "009" || Ascii.eqb c "013".
Definition flush (cur : string) (rest : list string) : list string := match cur with "" => rest | _ => cur :: rest end.
(** where an item ends although no blank follows *)
Definition edge (c : ascii) (r : string) : bool := match r with String d _ => (isAlpha c && isNumCh d) || (isNumCh c && isAlpha d) | "" => false end.
(** the items in one pass *)
Fixpoint cut (s : string) : string * list string :=
  match s with
  | "" => ("", [])
  | String c r => let '(cur, rest) := cut r in
      if blankCh c then ("", flush cur rest) else if edge c r then (String c "", flush cur rest) else (String c cur, rest)
  end.
Definition cuts (s : string) : list string := let '(cur, rest) := cut s in flush cur rest.

Lemma isAlpha_blank c : blankCh c = true -> isAlpha c = false /\ isNumCh c = false.
Proof. destruct c as [[] [] [] [] [] [] [] []]; cbv; auto; discriminate. Qed.
Lemma alpha_num c : isAlpha c = true -> isNumCh c = false.
Proof. destruct c as [[] [] [] [] [] [] [] []]; cbv; auto; discriminate. Qed.
Definition blank1 (c : ascii) : ascii := if Ascii.eqb c "," || Ascii.eqb c "010" || Ascii.eqb c "009" || Ascii.eqb c "013" then " "%char else c.
Lemma blank1_cases c : blankCh c = true /\ blank1 c = " "%char \/ blankCh c = false /\ blank1 c = c /\ Ascii.eqb c " " = false.
Proof. destruct c as [[] [] [] [] [] [] [] []]; cbv; auto. Qed.
Lemma blanks_cons c r : blanks (String c r) = String (blank1 c) (blanks r). Proof. reflexivity. Qed.

Lemma after_head c s : exists t, spaceAfterCmd (String c s) = String c t.
Proof. cbn. destruct s as [|d s]; [eauto|]. destruct (isAlpha c && isNumCh d); eauto. Qed.
Lemma items_cons c s : items_loop (String c s) = let '(cur, rest) := items_loop s in if Ascii.eqb c " " then ("", flush cur rest) else (String c cur, rest).
Proof. reflexivity. Qed.
Lemma before_cons c d s : spaceBeforeCmd (String c (String d s)) = if isNumCh c && isAlpha d then String c (String " " (spaceBeforeCmd (String d s))) else String c (spaceBeforeCmd (String d s)).
Proof. reflexivity. Qed.
Lemma after_cons c d s : spaceAfterCmd (String c (String d s)) = if isAlpha c && isNumCh d then String c (String " " (spaceAfterCmd (String d s))) else String c (spaceAfterCmd (String d s)).
Proof. reflexivity. Qed.

Lemma items_cut s : items_loop (spaceBeforeCmd (spaceAfterCmd (blanks s))) = cut s.
Proof.
  induction s as [|c r IH]; [reflexivity|]. cbn [cut]. rewrite <- IH. clear IH. rewrite blanks_cons. destruct r as [|d r].
  - cbn. destruct (blank1_cases c) as [(-> & ->)|(-> & -> & E)]; [reflexivity|]. rewrite E. reflexivity.
  - rewrite blanks_cons. set (w := blanks r). rewrite after_cons. destruct (after_head (blank1 d) w) as (t & Et). rewrite Et.
    assert (A1 : isAlpha (blank1 d) = isAlpha d /\ isNumCh (blank1 d) = isNumCh d).
    { destruct (blank1_cases d) as [(B & ->)|(_ & -> & _)]; [|auto]. destruct (isAlpha_blank d B) as [-> ->]. auto. }
    destruct A1 as [Ad Nd]. unfold edge.
    destruct (blank1_cases c) as [(B & ->)|(B & -> & NB)]; rewrite B.
    + cbn [isAlpha]. change (isAlpha " ") with false. cbn [andb]. rewrite before_cons. change (isNumCh " ") with false. cbn [andb]. rewrite items_cons. cbn. destruct (items_loop _); reflexivity.
    + destruct (isAlpha c && isNumCh (blank1 d)) eqn:E1.
      * rewrite Nd in E1. rewrite E1. cbn [orb]. apply andb_prop in E1. destruct E1 as [E1 E2]. rewrite before_cons. rewrite (alpha_num c E1). cbn [andb].
        rewrite before_cons. change (isNumCh " ") with false. cbn [andb]. rewrite items_cons, items_cons. cbn. destruct (items_loop _); rewrite NB; reflexivity.
      * rewrite Nd in E1. rewrite E1. cbn [orb]. rewrite before_cons, Ad. destruct (isNumCh c && isAlpha d) eqn:E2.
        -- rewrite items_cons, items_cons. cbn. destruct (items_loop _); rewrite NB; reflexivity.
        -- rewrite items_cons. destruct (items_loop _). rewrite NB. reflexivity.
Qed.
Lemma normalise_cuts s : normalise s = cuts s.
Proof. unfold normalise, items, cuts. rewrite items_cut. destruct (cut s) as [cur rest]. destruct cur; reflexivity. Qed.

Lemma cuts_blank b s : all_ch blankCh b = true -> cuts (b ++ s) = cuts s.
Proof.
  induction b as [|c b IH]; intros H; [reflexivity|]. cbn [all_ch] in H. apply andb_prop in H. destruct H as [Hc Hb]. cbn [append]. unfold cuts at 1. cbn [cut]. rewrite Hc. specialize (IH Hb). unfold cuts in IH.
  destruct (cut (b ++ s)). cbn [flush]. rewrite IH. reflexivity.
Qed.

(** the item [w] ends before [t] *)
Definition ends_before (w t : string) : Prop :=
  match t with
  | "" => True
  | String d _ => blankCh d = true \/ exists u c, w = u ++ String c "" /\ edge c t = true
  end.
(** no blank in it and no edge *)
Fixpoint solid (w : string) : bool := match w with "" => true | String c r => negb (blankCh c) && negb (edge c r) && solid r end.
Lemma cut_head s : match s with String c _ => blankCh c = true -> fst (cut s) = "" | "" => fst (cut s) = "" end.
Proof. destruct s as [|c r]; [reflexivity|]. intros H. cbn [cut]. destruct (cut r). rewrite H. reflexivity. Qed.
Lemma cut_item w t : w <> "" -> solid w = true -> ends_before w t -> cut (w ++ t) = (w, cuts t).
Proof.
  induction w as [|c w IH]; intros NE Hs He; [congruence|]. clear NE. cbn [solid] in Hs. apply andb_prop in Hs. destruct Hs as [Hs Hw]. apply andb_prop in Hs. destruct Hs as [Hb Hc]. apply negb_true_iff in Hb. apply negb_true_iff in Hc.
  cbn [append cut]. rewrite Hb. destruct w as [|d w].
  - cbn [append]. unfold cuts. destruct t as [|e t]; [reflexivity|]. destruct He as [He|(u & c' & E & He)].
    + pose proof (cut_head (String e t) He) as Hh. destruct (cut (String e t)) as [cur rest]. cbn [fst] in Hh. subst cur. cbn [flush edge]. destruct (isAlpha_blank e He) as [-> ->]. rewrite !andb_false_r. reflexivity.
    + destruct u as [|x u]; [|injection E as _ E; destruct u; discriminate E]. injection E as <-. rewrite He. destruct (cut (String e t)). reflexivity.
  - rewrite IH; [|discriminate|exact Hw|].
    + change (edge c (String d w ++ t)) with (edge c (String d w)). rewrite Hc. reflexivity.
    + destruct t as [|e t]; [exact I|]. destruct He as [He|(u & c' & E & He)]; [left; exact He|right]. destruct u as [|x u]; [discriminate E|]. injection E as _ E. exists u, c'. auto.
Qed.
Lemma cuts_item w t : w <> "" -> solid w = true -> ends_before w t -> cuts (w ++ t) = w :: cuts t.
Proof. intros NE Hs He. unfold cuts at 1. rewrite cut_item by auto. destruct w; [congruence|reflexivity]. Qed.
