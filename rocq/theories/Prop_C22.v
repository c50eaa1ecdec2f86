(** C22: the Rotated flag tells how the part was placed. *)
From Coq Require Import List ZArith Bool Reals Lra.
From Coq.Floats Require Import SpecFloat.
From Verif Require Import Num FloatNum RealNum BinPack BinPackProofs BinPackGeom Witness.
Import ListNotations.

(** Full claim: Rotated is true exactly when the returned size is the requested one with the sides exchanged.
    False when the part fills a free rectangle exactly: then the flag is the one the free rectangle happened to carry
    ([C22_missing_rotation_refuted], [C22_spurious_rotation_refuted]).
    Proved: whenever the returned bin is not one of the free rectangles that were there before the call, the flag is
    right, and the part is turned only if it did not fit unturned. *)
Theorem C22_flag_right_unless_exact_fit_partial_R : forall (O : Type) (o : O) (w h : T RNum) (b : bin RNum O) r rot b',
  pos RNum_pack w -> pos RNum_pack h -> binFin RNum_pack b -> Insert 3 b o w h = Ok (Some (r, rot), b') ->
  ~ In r (getEmpties b) ->
  exists e, In e (getEmpties b) /\ rx e = rx r /\ ry e = ry r /\
    ((rot = false /\ sized r w h /\ fits e w h) \/ (rot = true /\ sized r h w /\ ~ fits e w h)).
Proof.
  intros O o w h b r rot b' Pw Ph Hb E Hn.
  destruct (Insert_spec RNum_pack o w h 0 Pw Ph b Hb) as [(r' & rot' & b1 & E1 & _ & S & l1 & e & l2 & El & _ & Fe & Hx & Hy & Hfl)|[E1 _]];
    rewrite E1 in E; [|discriminate]. injection E as <- <- <-.
  exists e. split; [rewrite El; apply in_or_app; right; left; reflexivity|]. split; [auto|]. split; [auto|].
  destruct Hfl as [Hfl|Hfl]; [|exact Hfl]. exfalso. apply Hn. rewrite El, Hfl. apply in_or_app. right. left. reflexivity.
Qed.
Print Assumptions C22_flag_right_unless_exact_fit_partial_R.

Theorem C22_flag_right_unless_exact_fit_partial_binary64 : forall (O : Type) (o : O) (w h : T FNum) (b : bin FNum O) r rot b',
  pos FNum_pack w -> pos FNum_pack h -> binFin FNum_pack b -> Insert 3 b o w h = Ok (Some (r, rot), b') ->
  ~ In r (getEmpties b) ->
  exists e, In e (getEmpties b) /\ rx e = rx r /\ ry e = ry r /\
    ((rot = false /\ sized r w h /\ fits e w h) \/ (rot = true /\ sized r h w /\ ~ fits e w h)).
Proof.
  intros O o w h b r rot b' Pw Ph Hb E Hn.
  destruct (Insert_spec FNum_pack o w h 0 Pw Ph b Hb) as [(r' & rot' & b1 & E1 & _ & S & l1 & e & l2 & El & _ & Fe & Hx & Hy & Hfl)|[E1 _]];
    rewrite E1 in E; [|discriminate]. injection E as <- <- <-.
  exists e. split; [rewrite El; apply in_or_app; right; left; reflexivity|]. split; [auto|]. split; [auto|].
  destruct Hfl as [Hfl|Hfl]; [|exact Hfl]. exfalso. apply Hn. rewrite El, Hfl. apply in_or_app. right. left. reflexivity.
Qed.
Print Assumptions C22_flag_right_unless_exact_fit_partial_binary64.

Definition dans (r : res (list (placement (N:=FNum)) * bin FNum nat)) : res (list (option (list spec_float * bool))) :=
  match r with
  | Ok (l, _) => Ok (map (fun a => match a with Some (r, rot) => Some ([rx r; ry r; rw r; rh r], rot) | None => None end) l)
  | Err => Err | Panic => Panic | OutOfFuel => OutOfFuel
  end.

(** Finding: a 20 x 10 part exactly fills a 10 x 20 sheet when turned, and is reported as not turned. *)
Theorem C22_missing_rotation_refuted :
  dans (inserts 3 (NewContainer (fz 0) (fz 0) (fz 10) (fz 20)) [(1%nat, fz 20, fz 10)])
  = Ok [Some ([fz 0; fz 0; fz 10; fz 20], false)].
Proof. vm_compute. reflexivity. Qed.
Print Assumptions C22_missing_rotation_refuted.

(** Finding: on a 10 x 25 sheet a turned 20 x 10 part leaves a 10 x 5 rectangle; a 10 x 5 part put there upright is
    reported as turned. *)
Theorem C22_spurious_rotation_refuted :
  dans (inserts 3 (NewContainer (fz 0) (fz 0) (fz 10) (fz 25)) [(1%nat, fz 20, fz 10); (2%nat, fz 10, fz 5)])
  = Ok [Some ([fz 0; fz 0; fz 10; fz 20], true); Some ([fz 0; fz 20; fz 10; fz 5], true)].
Proof. vm_compute. reflexivity. Qed.
Print Assumptions C22_spurious_rotation_refuted.

(** a turned part with the flag right: 12 x 6 on a 10 x 20 sheet *)
Example C22_example :
  dans (inserts 3 (NewContainer (fz 0) (fz 0) (fz 10) (fz 20)) [(1%nat, fz 12, fz 6)]) = Ok [Some ([fz 0; fz 0; fz 6; fz 12], true)].
Proof. vm_compute. reflexivity. Qed.

(** the same part meets the hypotheses of the theorems: the bin it is given was not there before *)
Definition sheet22 : bin FNum nat := NewContainer (fz 0) (fz 0) (fz 10) (fz 20).
Example C22_hypotheses : pos FNum_pack (fz 12) /\ pos FNum_pack (fz 6) /\ binFin FNum_pack sheet22 /\
  exists r b', Insert 3 sheet22 1%nat (fz 12) (fz 6) = Ok (Some (r, true), b') /\ ~ In r (getEmpties sheet22).
Proof.
  split; [repeat split; vm_compute; reflexivity|]. split; [repeat split; vm_compute; reflexivity|]. split; [repeat split; vm_compute; reflexivity|].
  assert (H : match Insert 3 sheet22 1%nat (fz 12) (fz 6) with Ok (Some (r, rot), _) => (rot, SFeqb (rw r) (fz 10)) | _ => (false, true) end = (true, false)) by (vm_compute; reflexivity).
  destruct (Insert _ _ _ _ _) as [[[[r rot]|] b']| | |]; try discriminate H. injection H as -> H. exists r, b'. split; [reflexivity|].
  intros [<-|[]]. vm_compute in H. discriminate.
Qed.
