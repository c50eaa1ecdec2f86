(** C02: SVG text of a path parses back to the same drawing. *)
From Coq Require Import String List ZArith NArith Bool Reals.
From Coq.Floats Require Import SpecFloat.
From Verif Require Import Num FloatNum PathModel DrawModel SvgParse PathSpec PrecisionProofs IeeeProofs SvgProofs SvgProofs2 Witness.
Import ListNotations.

(** For every float type: if every printed coordinate is in the range of the number reader, the text parses, to
    segments of the same kinds in the same order, whose points are exactly the printed decimals
    ([reads_seg], [readback]: the number reader's value of the printed sign and digits), each starting where the last ended. *)
Theorem C02_parse_print : forall (N : Num) (n : nat) (p : path N), Forall (readable n) p ->
  exists q, ParsePathFromSvg (SvgString p n) = Ok q /\ Forall2 (reads_seg n) p q /\ linked origin q.
Proof. exact @Parse_reads. Qed.
Print Assumptions C02_parse_print.

(** On binary64, for every path whose coordinates are float64 values (including NaN and infinities) and every number of
    decimals: parsing succeeds, kinds and order are kept, every finite coordinate moves by at most 10^-n, and the parsed
    path is a fixed point of print-and-parse.  Full claim: also printing the result gives the same text.
    Missing: that fails when some coordinate prints as "-0.00.." ([C02_reprint_refuted]); it holds otherwise. *)
Theorem C02_binary64_partial : forall (n : nat) (p : path FNum), Forall go_seg p ->
  exists q, ParsePathFromSvg (SvgString p n) = Ok q /\ Forall2 (seg_close n) p q /\ linked origin q /\
    (Forall (no_minus_zero_seg n) p -> SvgString q n = SvgString p n) /\
    ParsePathFromSvg (SvgString q n) = Ok q.
Proof. exact Parse_F. Qed.
Print Assumptions C02_binary64_partial.

(** Finding: a small negative coordinate prints "-0.000" and comes back as "0.000". *)
Theorem C02_reprint_refuted : exists p q : path FNum, Forall go_seg p /\
  ParsePathFromSvg (SvgString p 3) = Ok q /\ SvgString q 3 <> SvgString p 3.
Proof.
  exists [Line (pt 0 0) (@mkPt FNum (flt (-1) (-4)) (fz 1))], [ln 0 0 0 1]. split; [|split].
  - repeat constructor.
  - byr.
  - vm_compute. discriminate.
Qed.
Print Assumptions C02_reprint_refuted.

(** the same for RebuildTransform, which prints with seven decimals *)
Theorem C02_rebuild : forall (p : path FNum), Forall go_seg p ->
  exists q, Rebuild p = Ok q /\ Forall2 (seg_close 7) p q /\ linked origin q /\ Rebuild q = Ok q.
Proof.
  intros p H. destruct (Parse_F 7 p H) as (q & E & C & L & _ & I). exists q. repeat split; assumption.
Qed.
Print Assumptions C02_rebuild.

Definition ex_path : path FNum :=
  [Move (pt 0 0) (ptm 1500 (-2250)); Line (ptm 1500 (-2250)) (ptm 123456789 333);
   Curve (ptm 123456789 333) (ptm (-1) 1) (ptm 0 77) (@mkPt FNum S754_nan (S754_infinity true))].
Example C02_example : Forall go_seg ex_path /\ Forall (no_minus_zero_seg 2) (firstn 2 ex_path) /\
  SvgString ex_path 2 = "M 1.50 -2.25 L 123456.79 0.33 C -0.00 0.00 NaN -Inf 0.00 0.08"%string.
Proof.
  split; [|split].
  - repeat constructor.
  - repeat constructor; vm_compute; discriminate.
  - vm_compute. reflexivity.
Qed.
