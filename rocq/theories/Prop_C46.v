(** C46: removing duplicates keeps exactly one of each, in order. *)
From Coq Require Import String List ZArith Bool.
From Verif Require Import Num NumLaws FloatNum PathModel PathProofs UtilProofs Witness.
Import ListNotations.

(** exactly the distinct strings *)
Theorem C46_same_members : forall a x, In x (StringArrayDeDup a) <-> In x a.
Proof. intros a x. destruct (StringArrayDeDup_loop_spec a []) as [H _]. unfold StringArrayDeDup. rewrite H. cbn. tauto. Qed.
Theorem C46_no_duplicates : forall a, NoDup (StringArrayDeDup a).
Proof. exact (fun a => proj2 (StringArrayDeDup_loop_spec a [])). Qed.
(** in order of first occurrence: appending an element appends it to the result exactly when it is new *)
Theorem C46_first_occurrence : forall a x,
  StringArrayDeDup (a ++ [x]) = (StringArrayDeDup a ++ (if in_dec string_dec x a then [] else [x]))%list.
Proof. exact StringArrayDeDup_snoc. Qed.
(** the same for numbers, where "seen" is Go's == (a NaN is never seen, so every NaN is kept) *)
Theorem C46_floats_first_occurrence : forall (N : Num), EqLaws N -> forall a (x : T N),
  Float64ArrayDeDup (a ++ [x]) = (Float64ArrayDeDup a ++ (if existsb (fun y => eqb y x) a then [] else [x]))%list.
Proof. exact @F64DeDup_snoc. Qed.
Print Assumptions C46_same_members.
Print Assumptions C46_no_duplicates.
Print Assumptions C46_first_occurrence.
Print Assumptions C46_floats_first_occurrence.

Example C46_example : StringArrayDeDup ["b"; "a"; "b"; "c"; "a"]%string = ["b"; "a"; "c"]%string. Proof. reflexivity. Qed.
Definition ex_floats := @Float64ArrayDeDup FNum [fz 2; fz 1; fz 2; fnan; fnan; fz 1].
Example C46_example_floats : ex_floats = [fz 2; fz 1; fnan; fnan]. Proof. vm_compute. reflexivity. Qed.
