(** C23: padding is respected. *)
From Coq Require Import List ZArith Bool Reals Lra Lia.
From Coq.Floats Require Import SpecFloat.
From Flocq Require Import Core.
From Verif Require Import Num FloatNum RealNum PrecisionProofs IeeeProofs IeeeArith BinPack BinPackProofs BinPackGeom BinPackPad BinPackFloat PlanSetProofs BinPackPadFloat Witness.
Import ListNotations.
Local Open Scope R_scope.

(** InsertWithPadding answers with the corner and the UNTURNED size of the part.
    After any history of padded inserts there is for each placed part a way to lay it down at the answered corner,
    upright or turned ([g = r \/ g = turn r]), such that all parts are at least p away from every edge of the sheet
    and any two are at least 2p apart along some axis.
    Full claim: that way is the one the Rotated flag tells.  False: the flag can be wrong (C22),
    see [C23_flag_refuted]; what is missing is the flag's correctness, not the room reserved. *)
Theorem C23_padding_partial : forall (O : Type) (p X Y W H : R) (reqs : list (O * T RNum * T RNum)),
  0 <= p -> 0 <= W -> 0 <= H -> Forall posReq reqs ->
  exists ans b' foots,
    insertsPadded 3 (Fin p : T RNum)
      (NewContainer (Fin X : T RNum) (Fin Y : T RNum) (Fin W : T RNum) (Fin H : T RNum) : bin RNum O) reqs = Ok (ans, b') /\
    Forall2 (fun q a => match a with Some (r, _) => exists x y w h, sizeReq q w h /\ rectIs r x y w h | None => True end) reqs ans /\
    Forall2 (fun a f => match a, f with
                        | Some (r, _), Some g => g = r \/ g = turn r
                        | None, None => True
                        | _, _ => False end) ans foots /\
    Forall (fun f => match f with Some g => clear_of_edges p X Y W H g | None => True end) foots /\
    pairwise (fun f g => match f, g with Some a, Some b => apart (2 * p) a b | _, _ => True end) foots.
Proof. intros O. apply (@padded_history O 0). Qed.
Print Assumptions C23_padding_partial.

Definition dans (r : res (list (placement (N:=FNum)) * bin FNum nat)) : res (list (option (list spec_float * bool))) :=
  match r with
  | Ok (l, _) => Ok (map (fun a => match a with Some (r, rot) => Some ([rx r; ry r; rw r; rh r], rot) | None => None end) l)
  | Err => Err | Panic => Panic | OutOfFuel => OutOfFuel
  end.

(** Finding: a 20 x 10 part with padding 1 on a 12 x 22 sheet is answered as 20 wide, 10 high at (1,1), not rotated:
    it sticks out of the sheet. *)
Theorem C23_flag_refuted :
  dans (insertsPadded 3 (fz 1) (NewContainer (fz 0) (fz 0) (fz 12) (fz 22)) [(1%nat, fz 20, fz 10)])
  = Ok [Some ([fz 1; fz 1; fz 20; fz 10], false)].
Proof. vm_compute. reflexivity. Qed.
Print Assumptions C23_flag_refuted.

Example C23_example :
  dans (insertsPadded 3 (fz 1) (NewContainer (fz 0) (fz 0) (fz 12) (fz 30)) [(1%nat, fz 4, fz 5); (2%nat, fz 12, fz 6); (3%nat, fz 20, fz 9)])
  = Ok [Some ([fz 1; fz 1; fz 4; fz 5], false); Some ([fz 1; fz 8; fz 12; fz 6], true); None].
Proof. vm_compute. reflexivity. Qed.
Example C23_example_hyp :
  Forall posReq [(1%nat, Fin 4 : T RNum, Fin 5 : T RNum); (2%nat, Fin 12 : T RNum, Fin 6 : T RNum)].
Proof. repeat constructor; [exists 4, 5|exists 12, 6]; (split; [eexists; reflexivity|lra]). Qed.

(** ** binary64 *)
(** The same in binary64 for [n] requests, up to a multiple of the rounding 2^(e - 54) of coordinates below 2^e: parts keep the padding to the
    edges up to 2 n + 4 roundings and twice the padding to each other up to 2 n + 6 roundings.
    Full claim and what is missing: as for [C23_padding_partial], the Rotated flag. *)
Theorem C23_binary64_partial : forall (O : Type) (e : Z) (p x y w h : T FNum) (reqs : list (O * T FNum * T FNum)) (n := INR (List.length reqs)),
  (-1020 <= e <= 1022)%Z -> gofin p -> gofin x -> gofin y -> gofin w -> gofin h ->
  0 <= fval p -> 0 <= fval x -> 0 <= fval y -> 0 <= fval w -> 0 <= fval h -> 2 * fval p <= bpow radix2 e ->
  fval x + fval w + 2 * n * bpow radix2 (e - 54) <= bpow radix2 e -> fval y + fval h + 2 * n * bpow radix2 (e - 54) <= bpow radix2 e ->
  Forall (fun q => sizeOk (snd (fst q)) /\ sizeOk (snd q)) reqs ->
  exists ans b' foots, insertsPadded 3 p (NewContainer x y w h : bin FNum O) reqs = Ok (ans, b') /\
    Forall2 (fun q a => match a with Some (r, _) => rw r = snd (fst q) /\ rh r = snd q | None => True end) reqs ans /\
    Forall2 (fun a f => match a, f with
                        | Some (r, _), Some g => g = boxOf r \/ g = turnB (boxOf r)
                        | None, None => True
                        | _, _ => False end) ans foots /\
    Forall (fun f => match f with Some g => clearB ((2 * n + 4) * bpow radix2 (e - 54)) (fval p) (fval x) (fval y) (fval w) (fval h) g | None => True end) foots /\
    pairwise (fun f g => match f, g with Some a, Some b => apartB ((2 * n + 6) * bpow radix2 (e - 54)) (2 * fval p) a b | _, _ => True end) foots.
Proof.
  intros O e p x y w h reqs n He Gp Gx Gy Gw Gh P0 X0 Y0 W0 H0 P2 BX BY Hs.
  assert (Hok : Forall (okPart FNum_pack p) reqs). { eapply Forall_impl; [|exact Hs]. intros q [Sw Sh]. apply (okPart_F e He p Gp P0 P2); assumption. }
  assert (Hr : Forall (reqOk FNum_pack) (map (padReqF p) reqs)). { rewrite Forall_map. eapply Forall_impl; [|exact Hok]. intros [[o qw] qh] (_ & _ & _ & _ & Hw & Hh). split; assumption. }
  destruct (inserts_fin FNum_pack 0 _ Hr (NewContainer x y w h)) as (ans0 & b' & E0 & _ & Ln). { split; assumption. }
  destruct (insertsPadded_F p reqs (NewContainer x y w h) ans0 b' E0) as [E Ln'].
  assert (HK : (List.length (placedF (unpadsF p reqs ans0)) <= List.length reqs)%nat). { rewrite <- Ln'. clear. generalize (unpadsF p reqs ans0). intros ans. induction ans as [|[[r rot]|] l IH]; cbn [placedF List.length]; lia. }
  assert (Hs' : Forall2 (fun q a => a <> None -> sizeOk (snd (fst q)) /\ sizeOk (snd q)) reqs (unpadsF p reqs ans0)).
  { clear - Hs Ln'. revert Ln'. generalize (unpadsF p reqs ans0). induction Hs as [|q l Hq Hl IH]; intros [|a ans] Ln'; try discriminate; constructor; auto. }
  destruct (padded_history_F e He p Gp P0 P2 (List.length reqs) x y w h Gx Gy Gw Gh X0 Y0 W0 H0 BX BY reqs _ b' Hok E HK Hs') as (foots & Q). exists (unpadsF p reqs ans0), b', foots. split; [exact E|exact Q].
Qed.
Print Assumptions C23_binary64_partial.

(** e = 5: a 12 x 30 sheet, padding 1, with the parts of [C23_example] *)
Example C23_binary64_example : gofin (fz 1) /\ 2 * fval (fz 1) <= bpow radix2 5 /\ fval (fz 0) + fval (fz 30) + 2 * INR 3 * bpow radix2 (5 - 54) <= bpow radix2 5 /\
  Forall (fun q => sizeOk (snd (fst q)) /\ sizeOk (snd q)) [(1%nat, fz 4, fz 5); (2%nat, fz 12, fz 6); (3%nat, fz 20, fz 9)].
Proof.
  assert (B : 30 <= bpow radix2 1022). { apply Rle_trans with (bpow radix2 5); [simpl; lra|apply bpow_le; lia]. }
  split; [split; reflexivity|]. split. { change (fz 1) with (S754_finite false 4503599627370496 (-52)). unfold fval. simpl. lra. }
  split. { change (fz 0) with (S754_zero false). change (fz 30) with (S754_finite false 8444249301319680 (-48)). unfold fval. simpl. lra. }
  assert (Z : forall k m ee, fz k = S754_finite false m ee -> go_float (fz k) -> fval (S754_finite false m ee) = IZR k -> 0 < IZR k <= 30 -> sizeOk (fz k)).
  { intros k m ee E V F R. split; [split; [exact V|rewrite E; reflexivity]|]. rewrite E, F. lra. }
  assert (Z4 : sizeOk (fz 4)) by (eapply (Z 4%Z 4503599627370496%positive (-50)%Z); [reflexivity|reflexivity|unfold fval; simpl; lra|lra]).
  assert (Z5 : sizeOk (fz 5)) by (eapply (Z 5%Z 5629499534213120%positive (-50)%Z); [reflexivity|reflexivity|unfold fval; simpl; lra|lra]).
  assert (Z12 : sizeOk (fz 12)) by (eapply (Z 12%Z 6755399441055744%positive (-49)%Z); [reflexivity|reflexivity|unfold fval; simpl; lra|lra]).
  assert (Z6 : sizeOk (fz 6)) by (eapply (Z 6%Z 6755399441055744%positive (-50)%Z); [reflexivity|reflexivity|unfold fval; simpl; lra|lra]).
  assert (Z20 : sizeOk (fz 20)) by (eapply (Z 20%Z 5629499534213120%positive (-48)%Z); [reflexivity|reflexivity|unfold fval; simpl; lra|lra]).
  assert (Z9 : sizeOk (fz 9)) by (eapply (Z 9%Z 5066549580791808%positive (-49)%Z); [reflexivity|reflexivity|unfold fval; simpl; lra|lra]).
  repeat (apply Forall_cons; [split; assumption|]). apply Forall_nil.
Qed.
