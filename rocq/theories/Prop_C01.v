(** C01: drawing operations always leave a contiguous path and only append. *)
From Coq Require Import List ZArith.
From Verif Require Import Num FloatNum PathModel DrawModel PathSpec PathProofs UtilProofs Witness.
Import ListNotations.

(** Whatever is called, in whatever order: each segment starts where the previous one ended, the first at the origin. *)
Theorem C01_contiguous : forall (N : Num) (tr : Trig N) (ops : list drawop),
  chain origin (rundraw tr ops NewDraw).
Proof. exact @rundraw_chain. Qed.
Print Assumptions C01_contiguous.

(** Later calls never alter earlier segments. *)
Theorem C01_append_only : forall (N : Num) (tr : Trig N) (before after : list drawop),
  exists new, rundraw tr (before ++ after) NewDraw = rundraw tr before NewDraw ++ new.
Proof. exact @rundraw_append_only. Qed.
Print Assumptions C01_append_only.

(** Each call that names a target leaves the pen exactly there. *)
Theorem C01_reaches_target : forall (N : Num) (tr : Trig N) (d : path N) (o : drawop) (p : Pt N),
  asked (pen origin d) o = Some p -> pen origin (drawstep tr d o) = p.
Proof. exact @drawstep_asked. Qed.
Print Assumptions C01_reaches_target.

Definition ex_ops : list (@drawop FNum) :=
  [OMoveTo (pt 1 2); ORect (fz 10) (fz 5); ORelLineTo (pt 3 4); OCircle (fz 2);
   OAddSegment (ln 7 7 8 8); OSmoothCurveTo (pt 1 1) (pt 9 9)].
(** the AddSegment above starts elsewhere (7,7): its start is moved to the pen *)
Example C01_example : length (rundraw noTrig ex_ops NewDraw) = 13%nat /\
  asked (pen origin (rundraw noTrig ex_ops NewDraw)) (ORelLineTo (pt 3 4)) = Some (pt 12 13).
Proof. split; [vm_compute; reflexivity|]. cbn [asked]. reflexivity. Qed.
