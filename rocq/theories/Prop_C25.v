(** C25: every part ends up on exactly one sheet. *)
From Coq Require Import List ZArith Bool Reals Lra Permutation.
From Coq.Floats Require Import SpecFloat.
From Verif Require Import Num FloatNum RealNum PathModel BinPack BinPackProofs BinPackGeom BinPackPad PlanSet PlanSetProofs Witness.
Import ListNotations.

(** Exact arithmetic: laying out any list of parts of positive size on any material succeeds, and the parts drawn on all the
    sheets together are exactly the given parts, each as often as given. *)
Theorem C25_each_part_once : forall (O : Type) (W H p : R) (parts : list (rpart RNum O)),
  (0 <= p)%R -> Forall posReq parts ->
  exists sheets, Init 3 (Fin W : T RNum) (Fin H : T RNum) (Fin p : T RNum) parts = Ok sheets /\
    Permutation (concat (map sheetParts sheets)) parts.
Proof.
  intros O W H p parts Hp Hq.
  destruct (@Init_spec RNum O RNum_pack (Fin W) (Fin H) (Fin p) (ex_intro _ W eq_refl) (ex_intro _ H eq_refl) parts) as (ds & E & _ & P).
  - eapply Forall_impl; [|exact Hq]. intros q. apply posReq_okPart. exact Hp.
  - exists ds. auto.
Qed.
Print Assumptions C25_each_part_once.

(** binary64: the same for finite material and parts whose padded size is finite *)
Theorem C25_each_part_once_binary64 : forall (O : Type) (W H p : T FNum) (parts : list (rpart FNum O)),
  fin FNum_pack W -> fin FNum_pack H -> Forall (okPart FNum_pack p) parts ->
  exists sheets, Init 3 W H p parts = Ok sheets /\ Permutation (concat (map sheetParts sheets)) parts.
Proof.
  intros O W H p parts FW FH Hq. destruct (@Init_spec FNum O FNum_pack W H p FW FH parts Hq) as (ds & E & _ & P). exists ds. auto.
Qed.
Print Assumptions C25_each_part_once_binary64.

(** Every float type: laying out further parts leaves what is on the sheets where it is (same sheet number, same
    place in the drawing order, same position and rotation). *)
Theorem C25_placed_parts_stay : forall (N : Num) (O : Type) fuel (W H p : T N) (parts more : list (rpart N O)) s1 s2,
  Init fuel W H p parts = Ok s1 -> Init fuel W H p (parts ++ more) = Ok s2 ->
  forall i d, nth_error s1 i = Some d -> exists d' extra, nth_error s2 i = Some d' /\ s_renderables d' = s_renderables d ++ extra.
Proof.
  intros N O fuel W H p parts more s1 s2 E1 E2 i d Hi. unfold Init in *. rewrite addAll_app, E1 in E2. cbn [bind] in E2.
  apply addAll_grow in E2 as (a & e & -> & F). clear E1.
  revert i Hi. induction F as [|x y l l' [m Hm] F IH]; intros [|i] Hi; cbn in Hi; try discriminate.
  - injection Hi as ->. exists y, m. auto.
  - apply IH in Hi. exact Hi.
Qed.
Print Assumptions C25_placed_parts_stay.

(** Every float type: the only failure is a part without area or of NaN size. *)
Theorem C25_bad_size_is_an_error : forall (N : Num) (O : Type) fuel (W H p : T N) (parts more : list (rpart N O)) s bad,
  Init fuel W H p parts = Ok s -> badSize bad -> Init fuel W H p (parts ++ bad :: more) = Err.
Proof.
  intros N O fuel W H p parts more s bad E Hb. unfold Init in *. rewrite addAll_app, E. cbn [bind addAll].
  rewrite (addPart_bad _ _ _ _ _ _ Hb). reflexivity.
Qed.
Print Assumptions C25_bad_size_is_an_error.

(** Exact arithmetic: a part larger (with its padding) than the material in both orientations is alone on its sheet. *)
Theorem C25_oversized_part_alone : forall (O : Type) (W H p w h : R) (o : O) (parts : list (rpart RNum O)) sheets d,
  (0 <= p)%R -> (0 <= W)%R -> (0 <= H)%R -> Forall posReq parts ->
  Init 3 (Fin W : T RNum) (Fin H : T RNum) (Fin p : T RNum) parts = Ok sheets ->
  In d sheets -> In (o, Fin w, Fin h) (sheetParts d) ->
  ~ (w + 2 * p <= W /\ h + 2 * p <= H)%R -> ~ (h + 2 * p <= W /\ w + 2 * p <= H)%R ->
  sheetParts d = [(o, Fin w, Fin h)].
Proof.
  intros O W H p w h o parts sheets d Hp HW HH Hq E Hd Hin N1 N2.
  destruct (@Init_spec RNum O RNum_pack (Fin W) (Fin H) (Fin p) (ex_intro _ W eq_refl) (ex_intro _ H eq_refl) parts) as (ds & E' & Ho & _).
  { eapply Forall_impl; [|exact Hq]. intros q. apply posReq_okPart. exact Hp. }
  rewrite E in E'. injection E' as <-. rewrite Forall_forall in Ho. destruct (Ho d Hd) as [_ [Hr|(q & o1 & _ & _ & _ & Er & _)]].
  - exfalso. destruct (sheet_layout p W H d Hp HW HH Hr) as (foots & F & C & _). unfold sheetParts in Hin.
    apply in_map_iff in Hin as (x & Ex & Hx). clear - F C Hx Ex N1 N2.
    revert Hx. induction F as [|y g l l' Hg F IH]; intros Hx; [destruct Hx|]. inversion C as [|? ? Cg Cl]; subst.
    destruct Hx as [->|Hx]; [|apply IH; auto].
    destruct Cg as (x1 & y1 & w1 & h1 & Eg & B). unfold rectIs in Eg. destruct x as [[[o' w'] h'] pos rot]. cbn in Ex.
    injection Ex as -> -> ->. unfold ground in Hg. cbn in Hg. rewrite Eg in Hg. destruct Hg as [Hg|Hg]; injection Hg as _ _ -> ->; lra.
  - unfold sheetParts in *. rewrite Er in *. cbn in *. destruct Hin as [->|[]]. reflexivity.
Qed.
Print Assumptions C25_oversized_part_alone.

(** 20 x 12 sheets with padding 1: parts 10x8, 9x6 (turned), 30x5 (too big), 3x3, 4x9 *)
Definition view (r : res (list (sheet FNum nat))) : res (list (list (nat * (spec_float * spec_float) * bool))) :=
  match r with
  | Ok ds => Ok (map (fun d => map (fun x => (fst (fst (r_part x)), (px (r_pos x), py (r_pos x)), r_rot x)) (s_renderables d)) ds)
  | Err => Err | Panic => Panic | OutOfFuel => OutOfFuel
  end.
Example C25_example :
  view (Init 3 (fz 20) (fz 12) (fz 1) [(1, fz 10, fz 8); (2, fz 9, fz 6); (3, fz 30, fz 5); (4, fz 3, fz 3); (5, fz 4, fz 9)])
  = Ok [ [(1, (fz 1, fz 1), false); (2, (fz 13, fz 1), true)]; [(3, (fz 0, fz 0), false)]; [(4, (fz 1, fz 1), false); (5, (fz 6, fz 1), false)] ].
Proof. vm_compute. reflexivity. Qed.
Example C25_example_error : view (Init 3 (fz 20) (fz 12) (fz 1) [(1, fz 10, fz 8); (2, fz 0, fz 6)]) = Err.
Proof. vm_compute. reflexivity. Qed.
Example C25_example_hyp : Forall posReq [(1, Fin 10 : T RNum, Fin 8 : T RNum); (3, Fin 30 : T RNum, Fin 5 : T RNum)].
Proof. repeat constructor; [exists 10%R, 8%R|exists 30%R, 5%R]; (split; [eexists; reflexivity|lra]). Qed.
Example C25_oversized_example : ~ (30 + 2 * 1 <= 20 /\ 5 + 2 * 1 <= 12)%R /\ ~ (5 + 2 * 1 <= 20 /\ 30 + 2 * 1 <= 12)%R.
Proof. lra. Qed.
