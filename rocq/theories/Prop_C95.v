(** C95: a text is shortened to the length asked for. *)
From Coq Require Import String Ascii List ZArith Bool Arith Lia.
From Verif Require Import Num PathModel.
Import ListNotations.
Local Open Scope string_scope.

(** *** what is meant: as it is if it fits, or else its beginning and three dots, of the length asked for *)
Inductive shortened (n : nat) : string -> string -> Prop :=
| short_fits s : String.length s <= n -> shortened n s s
| short_cut a b : n < String.length (a ++ b) -> String.length a + 3 = n -> shortened n (a ++ b) (a ++ "...").

Lemma length_app a b : String.length (a ++ b) = String.length a + String.length b.
Proof. induction a; cbn; auto. Qed.
Lemma substring_app a b : String.substring 0 (String.length a) (a ++ b) = a.
Proof. induction a as [|c a IH]; cbn; [destruct b; reflexivity|]. rewrite IH. reflexivity. Qed.
Lemma cut : forall k s, k <= String.length s -> exists a b, s = a ++ b /\ String.length a = k.
Proof.
  induction k as [|k IH]; intros s H; [exists "", s; auto|]. destruct s as [|c s]; cbn in H; [lia|]. destruct (IH s ltac:(lia)) as (a & b & -> & L). exists (String c a), b. cbn. auto.
Qed.

(** For a length of three or more, the text that is returned is the shortened one and no other. *)
Theorem C95_shortened s n r : 3 <= n -> StringElipses s (Z.of_nat n) = Ok r <-> shortened n s r.
Proof.
  intros H. unfold StringElipses. destruct (Z.ltb_spec (Z.of_nat n) (Z.of_nat (String.length s))) as [L|L].
  - destruct (Z.ltb_spec (Z.of_nat n - 3) 0); [lia|]. replace (Z.to_nat (Z.of_nat n - 3)) with (n - 3) by lia. destruct (cut (n - 3) s ltac:(lia)) as (a & b & -> & E). rewrite <- E, substring_app. split.
    + intros Q. injection Q as <-. apply short_cut; lia.
    + intros Q. inversion Q as [s' F|a' b' F E' Q2]; subst; [lia|]. f_equal. assert (AA : forall a a' b b' : string, a ++ b = a' ++ b' -> String.length a = String.length a' -> a = a').
      { clear. induction a as [|c a IH]; intros [|c' a'] b b' Q L; cbn in *; try discriminate; [reflexivity|]. injection Q as -> Q. f_equal. eapply IH; [exact Q|lia]. }
      rewrite (AA _ _ _ _ Q2); [reflexivity|lia].
  - split; [intros Q; injection Q as <-; apply short_fits; lia|]. intros Q. inversion Q; subst; [reflexivity|lia].
Qed.
(** So it is never longer than asked for. *)
Theorem C95_length s n r : 3 <= n -> StringElipses s (Z.of_nat n) = Ok r -> String.length r <= n.
Proof. intros H E. apply C95_shortened in E; [|exact H]. destruct E as [s F|a b F E]; [exact F|]. rewrite length_app. cbn. lia. Qed.
(** A text that does not fit into fewer than three characters is a panic. *)
Theorem C95_tiny_refuted s n : (n < 3)%Z -> (n < Z.of_nat (String.length s))%Z -> StringElipses s n = Panic.
Proof. intros H1 H2. unfold StringElipses. destruct (Z.ltb_spec n (Z.of_nat (String.length s))); [|lia]. destruct (Z.ltb_spec (n - 3) 0); [reflexivity|lia]. Qed.
(** The length is in bytes: a character of two bytes can be cut in half. *)
Definition eAcute : string := String (ascii_of_nat 195) (String (ascii_of_nat 169) "").
Theorem C95_half_refuted : StringElipses ("M 1 0 " ++ eAcute ++ " 2 3") 10 = Ok ("M 1 0 " ++ String (ascii_of_nat 195) "...").
Proof. reflexivity. Qed.
Print Assumptions C95_shortened. Print Assumptions C95_length. Print Assumptions C95_tiny_refuted. Print Assumptions C95_half_refuted.

(** the text of a path in the error message of the parser *)
Example C95_shortened_example : StringElipses "M 1 0 L 2 3 L 4 5" 10 = Ok "M 1 0 L..." /\ StringElipses "M 1 0" 10 = Ok "M 1 0" /\ shortened 10 "M 1 0 L 2 3 L 4 5" "M 1 0 L...".
Proof. split; [reflexivity|]. split; [reflexivity|]. apply (short_cut 10 "M 1 0 L" " 2 3 L 4 5"); cbn; lia. Qed.
Example C95_length_example : StringElipses "abcd" 3 = Ok "...". Proof. reflexivity. Qed.
Example C95_tiny_example : (2 < Z.of_nat (String.length "abc"))%Z /\ StringElipses "abc" 2 = Panic. Proof. split; reflexivity. Qed.
