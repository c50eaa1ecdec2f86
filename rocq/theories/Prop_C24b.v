(** C24, continued: a container made for one object. *)
From Coq Require Import List ZArith Bool.
From Verif Require Import Num FloatNum BinPack Witness.
Import ListNotations.

(** the objects in a bin and the rectangles they take up *)
Fixpoint contents {N : Num} {O : Type} (b : bin N O) : list (O * (T N * T N * T N * T N)) :=
  match b with
  | Leaf r _ (Some o) => [(o, (rx r, ry r, rw r, rh r))]
  | Leaf _ _ None => []
  | Node _ _ l r => contents l ++ contents r
  end.
(** It holds that object and nothing else, in all of its rectangle: nothing is free, and whatever is put in later is refused and changes nothing. *)
Theorem C24_single (N : Num) (O : Type) (o : O) (x y w h : T N) : let b := NewSingleObjectContainer o x y w h in
  contents b = [(o, (x, y, w, h))] /\ getEmpties b = [] /\ IsEmpty b = false /\
  (forall fuel o' w' h', 0 < fuel -> Insert fuel b o' w' h' = Ok (None, b)) /\ forall fuel o' w' h' p, 0 < fuel -> InsertWithPadding fuel b o' w' h' p = Ok (None, b).
Proof.
  intros b. assert (I : forall fuel o' w' h', 0 < fuel -> Insert fuel b o' w' h' = Ok (None, b)).
  { intros [|f] o' w' h' F; [inversion F|]. cbn [b NewSingleObjectContainer Insert leafInsert]. destruct (_ || _)%bool; [reflexivity|]. destruct (tooSmall _ _ _ && _)%bool; reflexivity. }
  repeat split; auto. intros fuel o' w' h' p F. unfold InsertWithPadding. rewrite I by exact F. reflexivity.
Qed.
Print Assumptions C24_single.
(** an object of the size of the container does not fit in a second time *)
Example C24_single_example : match Insert 3 (NewSingleObjectContainer 7%nat (fz 0) (fz 0) (fz 40) (fz 30)) 8%nat (fz 40) (fz 30) with Ok (None, b) => Some (map fst (contents b)) | _ => None end = Some [7%nat].
Proof. vm_compute. reflexivity. Qed.
