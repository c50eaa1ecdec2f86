(** C49: parts on one sheet never overlap and keep their padding. *)
From Coq Require Import List ZArith Bool Reals Lra.
From Coq.Floats Require Import SpecFloat.
From Coq Require Import Lia Permutation.
From Flocq Require Import Core.
From Verif Require Import Num FloatNum RealNum PrecisionProofs IeeeProofs IeeeArith PathModel BinPack BinPackProofs BinPackGeom BinPackPad BinPackFloat PlanSet PlanSetProofs BinPackPadFloat Witness.
Import ListNotations.
Local Open Scope R_scope.

(** For every sheet of the layout with not exactly one part there are places [foots] for its parts, each at the drawn
    position with the part's size, upright or turned, such that all keep the padding.
    Full claim: turned exactly when the drawing turns it.  False because of C22 ([C49_overlap_refuted]); what is
    missing is the correctness of the Rotated flag for exact fits. *)
Theorem C49_no_overlap_partial : forall (O : Type) (W H p : R) (parts : list (rpart RNum O)) sheets d,
  0 <= p -> 0 <= W -> 0 <= H -> Forall posReq parts ->
  Init 3 (Fin W : T RNum) (Fin H : T RNum) (Fin p : T RNum) parts = Ok sheets -> In d sheets ->
  length (s_renderables d) <> 1%nat ->
  exists foots, Forall2 (fun x g => g = ground x \/ g = turn (ground x)) (s_renderables d) foots /\
    Forall (clear_of_edges p 0 0 W H) foots /\ pairwise (apart (2 * p)) foots.
Proof.
  intros O W H p parts sheets d Hp HW HH Hq E Hd Hl.
  destruct (@Init_spec RNum O RNum_pack (Fin W) (Fin H) (Fin p) (ex_intro _ W eq_refl) (ex_intro _ H eq_refl) parts) as (ds & E' & Ho & _).
  { eapply Forall_impl; [|exact Hq]. intros q. apply posReq_okPart. exact Hp. }
  rewrite E in E'. injection E' as <-. rewrite Forall_forall in Ho. destruct (Ho d Hd) as [_ [Hr|(q & o1 & _ & _ & _ & Er & _)]].
  - apply sheet_layout; auto.
  - rewrite Er in Hl. cbn in Hl. congruence.
Qed.
Print Assumptions C49_no_overlap_partial.

(** position, size and rotation of the parts of the sheets *)
Definition view (r : res (list (sheet FNum nat))) : res (list (list (list spec_float * bool))) :=
  match r with
  | Ok ds => Ok (map (fun d => map (fun x => let '(_, w, h) := r_part x in ([px (r_pos x); py (r_pos x); w; h], r_rot x)) (s_renderables d)) ds)
  | Err => Err | Panic => Panic | OutOfFuel => OutOfFuel
  end.
(** Finding: material 20 x 15, no padding; parts 10x5 at the top left, 20x10 filling everything below, then 5x10 turned exactly into the
    free 10x5 at the top right.  It is drawn upright, 10 high from y = 0, across the second part which begins at y = 5. *)
Theorem C49_overlap_refuted :
  view (Init 3 (fz 20) (fz 15) (fz 0) [(1%nat, fz 10, fz 5); (2%nat, fz 20, fz 10); (3%nat, fz 5, fz 10)])
  = Ok [[([fz 0; fz 0; fz 10; fz 5], false); ([fz 0; fz 5; fz 20; fz 10], false); ([fz 10; fz 0; fz 5; fz 10], false)]].
Proof. vm_compute. reflexivity. Qed.
Print Assumptions C49_overlap_refuted.

Example C49_example :
  view (Init 3 (fz 20) (fz 12) (fz 1) [(1%nat, fz 10, fz 8); (2%nat, fz 9, fz 6); (3%nat, fz 3, fz 1)])
  = Ok [[([fz 1; fz 1; fz 10; fz 8], false); ([fz 13; fz 1; fz 9; fz 6], true)]; [([fz 1; fz 1; fz 3; fz 1], false)]].
Proof. vm_compute. reflexivity. Qed.
Example C49_example_hyp : Forall posReq [(1%nat, Fin 10 : T RNum, Fin 8 : T RNum); (3%nat, Fin 30 : T RNum, Fin 5 : T RNum)].
Proof. repeat constructor; [exists 10, 8|exists 30, 5]; (split; [eexists; reflexivity|lra]). Qed.

(** ** binary64 *)
(** Whole layouts in binary64: the padding is kept up to a multiple of the rounding 2^(e - 54) of coordinates below 2^e, n being the number
    of parts of the plan.  Full claim and what is missing: as for [C49_no_overlap_partial]. *)
Theorem C49_binary64_partial : forall (O : Type) (e : Z) (W H p : T FNum) (parts : list (rpart FNum O)) sheets s (n := INR (List.length parts)),
  (-1020 <= e <= 1022)%Z -> gofin W -> gofin H -> gofin p -> 0 <= fval W -> 0 <= fval H -> 0 <= fval p -> 2 * fval p <= bpow radix2 e ->
  fval W + 2 * n * bpow radix2 (e - 54) <= bpow radix2 e -> fval H + 2 * n * bpow radix2 (e - 54) <= bpow radix2 e ->
  Forall (fun q => sizeOk (snd (fst q)) /\ sizeOk (snd q)) parts ->
  Init 3 W H p parts = Ok sheets -> In s sheets -> length (s_renderables s) <> 1%nat ->
  exists foots, Forall2 (fun x g => g = groundB x \/ g = turnB (groundB x)) (s_renderables s) foots /\
    Forall (clearB ((2 * n + 4) * bpow radix2 (e - 54)) (fval p) 0 0 (fval W) (fval H)) foots /\ pairwise (apartB ((2 * n + 6) * bpow radix2 (e - 54)) (2 * fval p)) foots.
Proof.
  intros O e W H p parts sheets s n He GW GH Gp W0 H0 P0 P2 BW BH Hs E Hd Hl.
  destruct (@Init_spec FNum O FNum_pack W H p GW GH parts) as (ds & E' & Ho & Pm).
  { eapply Forall_impl; [|exact Hs]. intros q [Sw Sh]. apply (okPart_F e He p Gp P0 P2); assumption. }
  rewrite E in E'. injection E' as <-. rewrite Forall_forall in Ho. destruct (Ho s Hd) as [_ [Hr|(q & o1 & _ & _ & _ & Er & _)]]; [|rewrite Er in Hl; cbn in Hl; congruence].
  destruct (in_split _ _ Hd) as (l1 & l2 & ->).
  assert (Pm' : Permutation (sheetParts s ++ (allParts l1 ++ allParts l2)) parts).
  { rewrite <- Pm. unfold allParts. rewrite map_app, concat_app. cbn [map concat]. rewrite Permutation_app_swap_app. reflexivity. }
  apply (sheet_layout_F e He p Gp P0 P2 (List.length parts) W H s); auto.
  - apply Permutation_length in Pm'. rewrite app_length in Pm'. unfold sheetParts in Pm'. rewrite map_length in Pm'. lia.
  - assert (F : Forall (fun q => sizeOk (snd (fst q)) /\ sizeOk (snd q)) (sheetParts s)) by (rewrite <- Pm' in Hs; apply Forall_app in Hs as [Hs _]; exact Hs). unfold sheetParts in F. rewrite Forall_map in F. exact F.
Qed.
Print Assumptions C49_binary64_partial.

(** e = 5: the material and the parts of [C49_example] *)
Example C49_binary64_example : gofin (fz 1) /\ gofin (fz 20) /\ 2 * fval (fz 1) <= bpow radix2 5 /\ fval (fz 20) + 2 * INR 3 * bpow radix2 (5 - 54) <= bpow radix2 5 /\
  Forall (fun q => sizeOk (snd (fst q)) /\ sizeOk (snd q)) [(1%nat, fz 10, fz 8); (2%nat, fz 9, fz 6); (3%nat, fz 3, fz 1)].
Proof.
  assert (B : 30 <= bpow radix2 1022). { apply Rle_trans with (bpow radix2 5); [simpl; lra|apply bpow_le; lia]. }
  split; [split; reflexivity|]. split; [split; reflexivity|]. split. { change (fz 1) with (S754_finite false 4503599627370496 (-52)). unfold fval. simpl. lra. }
  split. { change (fz 20) with (S754_finite false 5629499534213120 (-48)). unfold fval. simpl. lra. }
  assert (Z : forall k m ee, fz k = S754_finite false m ee -> go_float (fz k) -> fval (S754_finite false m ee) = IZR k -> 0 < IZR k <= 30 -> sizeOk (fz k)).
  { intros k m ee E V F R. split; [split; [exact V|rewrite E; reflexivity]|]. rewrite E, F. lra. }
  assert (Z10 : sizeOk (fz 10)) by (eapply (Z 10%Z 5629499534213120%positive (-49)%Z); [reflexivity|reflexivity|unfold fval; simpl; lra|lra]).
  assert (Z8 : sizeOk (fz 8)) by (eapply (Z 8%Z 4503599627370496%positive (-49)%Z); [reflexivity|reflexivity|unfold fval; simpl; lra|lra]).
  assert (Z9 : sizeOk (fz 9)) by (eapply (Z 9%Z 5066549580791808%positive (-49)%Z); [reflexivity|reflexivity|unfold fval; simpl; lra|lra]).
  assert (Z6 : sizeOk (fz 6)) by (eapply (Z 6%Z 6755399441055744%positive (-50)%Z); [reflexivity|reflexivity|unfold fval; simpl; lra|lra]).
  assert (Z3 : sizeOk (fz 3)) by (eapply (Z 3%Z 6755399441055744%positive (-51)%Z); [reflexivity|reflexivity|unfold fval; simpl; lra|lra]).
  assert (Z1 : sizeOk (fz 1)) by (eapply (Z 1%Z 4503599627370496%positive (-52)%Z); [reflexivity|reflexivity|unfold fval; simpl; lra|lra]).
  repeat (apply Forall_cons; [split; assumption|]). apply Forall_nil.
Qed.
