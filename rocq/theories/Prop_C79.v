(** C79: the comparison of a directory of sheets with another one finds every difference: it counts none exactly when every file has a file of the same name with the same text on the other side. *)
From Coq Require Import String Ascii List NArith Arith Bool Lia.
From Verif Require Import Num TextProofs Output Prop_C78.
Import ListNotations.
Local Open Scope string_scope.

(** Specification. A file of a directory: its name and text. *)
Definition named (p n : string) : Prop := without "/" n /\ exists dir, isDirText dir /\ p = dir ++ n.

Lemma afterLast_some c s t : afterLast c s = Some t -> without c t /\ exists a, s = a ++ String c t.
Proof.
  induction s as [|d s IH]; cbn [afterLast]; [discriminate|]. destruct (afterLast c s) as [u|] eqn:E.
  - intros H. destruct (IH H) as (W & a & ->). split; [exact W|]. exists (String d a). reflexivity.
  - destruct (Ascii.eqb_spec d c) as [->|]; [|discriminate]. intros [= <-]. split; [apply without_dec; exact E|]. exists "". reflexivity.
Qed.
Lemma base_named p n : base p = n <-> named p n.
Proof.
  unfold base, named. split.
  - destruct (afterLast "/" p) as [t|] eqn:E; intros <-.
    + destruct (afterLast_some _ _ _ E) as (W & a & ->). split; [exact W|]. exists (a ++ "/"). split; [right; exists a; reflexivity|]. rewrite app_assoc_s. reflexivity.
    + split; [apply without_dec; exact E|]. exists "". split; [left; reflexivity|reflexivity].
  - intros (W & dir & [->|(t & ->)] & ->).
    + cbn [append]. rewrite (afterLast_none _ _ W). reflexivity.
    + rewrite app_assoc_s. cbn [append]. rewrite (afterLast_app _ _ _ W). reflexivity.
Qed.

(** one file for each name *)
Definition oneEach (files : list string) : Prop := forall p q n, In p files -> In q files -> named p n -> named q n -> p = q.

(** What is reported: a difference for every two files with the same name and different texts, a missing file for every file of the left without a file of the same name on the right. *)
Theorem C79_reported d left right : oneEach right ->
  (forall l r, In (BadDiff l r) (CompareDirectories d left right) <-> In l left /\ In r right /\ (exists n, named l n /\ named r n) /\ content d l <> content d r) /\
  (forall l, In (Missing l) (CompareDirectories d left right) <-> In l left /\ forall r n, In r right -> named l n -> ~ named r n).
Proof.
  intros U. unfold CompareDirectories.
  assert (F : forall l, match find (fun r => String.eqb (base r) (base l)) right with Some r => In r right /\ named l (base l) /\ named r (base l) | None => forall r n, In r right -> named l n -> ~ named r n end).
  { intros l. destruct (find _ right) as [r|] eqn:E.
    - apply find_some in E. destruct E as [I E]. apply String.eqb_eq in E. split; [exact I|]. split; [apply base_named; reflexivity|apply base_named; exact E].
    - intros r n I Nl Nr. apply (find_none _ _ E) in I. apply base_named in Nl, Nr. apply String.eqb_neq in I. congruence. }
  split.
  - intros l r. rewrite in_flat_map. split.
    + intros (l' & I & H). unfold compareFile in H. specialize (F l'). destruct (find _ right) as [r'|]; [|destruct H as [H|[]]; discriminate].
      destruct (String.eqb_spec (content d l') (content d r')) as [E|E]; [destruct H|]. destruct H as [H|[]]. inversion H; subst. destruct F as (I2 & N1 & N2). eauto 6.
    + intros (Il & Ir & (n & Nl & Nr) & D). exists l. split; [exact Il|]. unfold compareFile. specialize (F l). destruct (find _ right) as [r'|].
      * destruct F as (I2 & N1 & N2). assert (r' = r). { apply base_named in Nl. subst n. apply (U r' r (base l)); assumption. } subst r'.
        apply String.eqb_neq in D. rewrite D. left. reflexivity.
      * exfalso. apply (F r n); assumption.
  - intros l. rewrite in_flat_map. split.
    + intros (l' & I & H). unfold compareFile in H. specialize (F l'). destruct (find _ right) as [r'|].
      * destruct (String.eqb (content d l') (content d r')); [destruct H|destruct H as [H|[]]; discriminate].
      * destruct H as [H|[]]. inversion H; subst. auto.
    + intros (Il & H). exists l. split; [exact Il|]. unfold compareFile. specialize (F l). destruct (find _ right) as [r'|]; [|left; reflexivity].
      exfalso. destruct F as (I2 & N1 & N2). apply (H r' (base l)); assumption.
Qed.
Definition exDisk : disk := fun n => if String.eqb n "old/box_000.svg" then Some "a" else if String.eqb n "new/box_000.svg" then Some "b" else if hasSuffix n "lid_000.svg" then Some "c" else None.
Example C79_reported_ex : CompareDirectories exDisk ["old/box_000.svg"; "old/lid_000.svg"; "old/top_000.svg"] ["new/lid_000.svg"; "new/box_000.svg"] = [BadDiff "old/box_000.svg" "new/box_000.svg"; Missing "old/top_000.svg"].
Proof. reflexivity. Qed.
Example C79_reported_one : oneEach ["new/lid_000.svg"; "new/box_000.svg"].
Proof. intros p q n [<-|[<-|[]]] [<-|[<-|[]]] H1 H2; try reflexivity; apply base_named in H1, H2; cbn in H1, H2; congruence. Qed.

(** The number that is printed is zero exactly when all files that have a file of the same name have its text. *)
Theorem C79_count d left right : oneEach right ->
  (diffCount (CompareDirectories d left right) = 0%nat <-> forall l r n, In l left -> In r right -> named l n -> named r n -> content d l = content d r).
Proof.
  intros U. destruct (C79_reported d left right U) as [B _]. unfold diffCount. split.
  - intros Z l r n Il Ir Nl Nr. destruct (String.eqb_spec (content d l) (content d r)) as [E|E]; [exact E|exfalso].
    assert (I : In (BadDiff l r) (CompareDirectories d left right)) by (apply B; eauto 6).
    apply length_zero_iff_nil in Z. assert (J : In (BadDiff l r) []) by (rewrite <- Z; apply filter_In; auto). destruct J.
  - intros H. apply length_zero_iff_nil. destruct (filter _ _) as [|x xs] eqn:E; [reflexivity|exfalso].
    assert (I : In x (x :: xs)) by (left; reflexivity). rewrite <- E in I. apply filter_In in I. destruct I as [I K]. destruct x as [l r|]; [|discriminate].
    apply B in I. destruct I as (Il & Ir & (n & Nl & Nr) & D). apply D, (H l r n); assumption.
Qed.
Example C79_count_ex : diffCount (CompareDirectories exDisk ["old/box_000.svg"; "old/lid_000.svg"] ["new/lid_000.svg"; "new/box_000.svg"]) <> 0%nat /\ diffCount (CompareDirectories exDisk ["old/lid_000.svg"] ["new/lid_000.svg"; "new/box_000.svg"]) = 0%nat.
Proof.
  split.
  - intros Z. apply (C79_count _ _ _ C79_reported_one) with (l := "old/box_000.svg") (r := "new/box_000.svg") (n := "box_000.svg") in Z; [discriminate|cbn; auto|cbn; auto|apply base_named; reflexivity|apply base_named; reflexivity].
  - apply (C79_count _ _ _ C79_reported_one). intros l r n [<-|[]] [<-|[<-|[]]] H1 H2; apply base_named in H1, H2; cbn in H1, H2; [reflexivity|congruence].
Qed.

(** REFUTED: no difference is counted only if the directories have the same files. A design that is no longer rendered, all of them even, is no difference; nor is a file that is new. *)
Theorem C79_missing_refuted d left right : (forall l r n, In l left -> In r right -> named l n -> ~ named r n) -> diffCount (CompareDirectories d left right) = 0%nat.
Proof.
  intros H. unfold diffCount, CompareDirectories. apply length_zero_iff_nil. induction left as [|l ls IH]; [reflexivity|]. cbn [flat_map]. rewrite filter_app, IH by (intros l' r n I; apply H; right; exact I).
  rewrite app_nil_r. unfold compareFile. destruct (find _ right) as [r|] eqn:E; [|reflexivity]. exfalso. apply find_some in E. destruct E as [I E]. apply String.eqb_eq in E.
  apply (H l r (base l) (or_introl eq_refl) I); apply base_named; auto.
Qed.
Example C79_missing_ex d : diffCount (CompareDirectories d ["designs_rendered/box_000.svg"; "designs_rendered/lid_000.svg"] []) = 0%nat /\ diffCount (CompareDirectories d [] ["out/box_000.svg"]) = 0%nat.
Proof. split; apply C79_missing_refuted; cbn; intros; contradiction. Qed.

(** REFUTED: a file is compared with the file in its place. Only names are compared: of two files with the same name in different directories only the first on the other side is looked at, so that directories with the same files at the same places differ. *)
Theorem C79_place_refuted d a b n : without "/" n -> content d (a ++ "/" ++ n) <> content d (b ++ "/" ++ n) ->
  let files := [a ++ "/" ++ n; b ++ "/" ++ n] in CompareDirectories d files files = [BadDiff (b ++ "/" ++ n) (a ++ "/" ++ n)].
Proof.
  intros W D files. assert (B : forall x, base (x ++ "/" ++ n) = n).
  { intros x. apply base_named. split; [exact W|]. exists (x ++ "/"). split; [right; exists x; reflexivity|]. rewrite app_assoc_s. reflexivity. }
  unfold CompareDirectories, files, compareFile. cbn [flat_map find]. rewrite !B, !String.eqb_refl. cbn [app].
  destruct (String.eqb_spec (content d (b ++ "/" ++ n)) (content d (a ++ "/" ++ n))) as [E|E]; [congruence|reflexivity].
Qed.
Example C79_place_ex : CompareDirectories (fun p => Some p) ["shelf/low_000.svg"; "table/low_000.svg"] ["shelf/low_000.svg"; "table/low_000.svg"] = [BadDiff "table/low_000.svg" "shelf/low_000.svg"].
Proof. apply (C79_place_refuted (fun p => Some p) "shelf" "table" "low_000.svg"); [apply without_dec; reflexivity|discriminate]. Qed.

(** REFUTED: files that differ are reported.  A file that cannot be read counts as empty: it has no difference to an empty file, nor to another one that cannot be read. *)
Theorem C79_unreadable_refuted d l r n : named l n -> named r n -> d l = None -> d r = None \/ d r = Some "" -> CompareDirectories d [l] [r] = [] /\ diffCount (CompareDirectories d [l] [r]) = 0%nat.
Proof.
  intros H1 H2 E1 E2. apply base_named in H1, H2. assert (E : CompareDirectories d [l] [r] = []); [|rewrite E; auto]. unfold CompareDirectories, compareFile. cbn [flat_map find]. rewrite H1, H2, String.eqb_refl. unfold content. rewrite E1. destruct E2 as [-> | ->]; reflexivity.
Qed.
Example C79_unreadable_ex : let d := fun p => if String.eqb p "new/box_000.svg" then Some "" else None in named "old/box_000.svg" "box_000.svg" /\ d "old/box_000.svg" = None /\ d "new/box_000.svg" = Some "" /\ CompareDirectories d ["old/box_000.svg"] ["new/box_000.svg"] = [].
Proof. split; [apply base_named; reflexivity|]. repeat split. Qed.
Print Assumptions C79_unreadable_refuted.
