(** C78, continued: an output that ends with a slash but is no directory yet. *)
From Coq Require Import String Ascii List NArith Bool.
From Verif Require Import Num Output Prop_C78.
Import ListNotations.
Local Open Scope string_scope.

Lemma afterLast_end d : exists t, afterLast "/" (d ++ "/") = Some t.
Proof. induction d as [|c d [t IH]]; [exists ""; reflexivity|]. cbn [append afterLast]. rewrite IH. exists t. reflexivity. Qed.
Lemma dirOf_end d : dirOf (d ++ "/") = d ++ "/".
Proof.
  induction d as [|c d IH]; [reflexivity|]. destruct (afterLast_end (String c d)) as [t E]. cbn [append] in *. cbn [dirOf]. rewrite E, IH. reflexivity.
Qed.
(** It is the directory for the output, whether it exists or not. *)
Theorem C78_slash isDir clean out dir p : shaped p -> clean (out ++ "/") = dir -> dir <> "." -> dir <> "/" ->
  createFilename isDir clean (out ++ "/") (text p) = dir ++ "/" ++ dp_name p.
Proof.
  intros HS H2 H3 H4. destruct (isDir (out ++ "/")) eqn:D; [apply (C78_name isDir clean (out ++ "/") dir p HS); auto; destruct out; discriminate|].
  pose proof HS as (Hd & Hn & He & Hx). unfold createFilename. rewrite D. assert (E0 : String.eqb (out ++ "/") "" = false) by (destruct out; reflexivity). rewrite E0, dirOf_end, H2.
  assert (E1 : base (out ++ "/") = ""). { unfold base. change "/" with (String "/" "") at 2. rewrite afterLast_app; [reflexivity|]. intros a b E. destruct a; discriminate. }
  rewrite E1. cbn [String.eqb]. rewrite (base_shaped p HS). unfold joinDir. apply String.eqb_neq in H3, H4. rewrite H3, H4, (ext_base _ _ Hn He Hx), trimSuffix_app. reflexivity.
Qed.
Print Assumptions C78_slash.
Example C78_slash_ex : createFilename (fun _ => false) (fun s => if String.eqb s "new/out/" then "new/out" else s) "new/out/" (text boxPath) = "new/out/box_name".
Proof. apply (C78_slash _ _ "new/out" "new/out"); [exact box_shaped|reflexivity|discriminate|discriminate]. Qed.
