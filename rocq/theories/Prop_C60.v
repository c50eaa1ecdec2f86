(** C60: repeating a component fills the room given with whole copies, and no more. *)
From Coq Require Import List ZArith Bool Reals Lra Lia.
From Verif Require Import Num RealNum RealTrig PathModel DrawModel SegOps TransformsModel Bezier GeomTransforms PathSpec GeomSpec PathProofs BezierProofs GeomProofs AffineProofs HandleProofs Prop_C14 Components CompProofs.
Import ListNotations.
Local Open Scope R_scope.

(** W is the greatest number of a set *)
Definition greatest (S : R -> Prop) (w : R) : Prop := S w /\ forall x, S x -> x <= w.
(** the x, and the y, that a path reaches: with its first segment, with anything drawn, or with its end *)
Definition reachX (p : path RNum) (x : R) : Prop :=
  (exists g r y, p = g :: r /\ onSeg g x y) \/ (exists y, inDrawing p x y) \/ (exists e, ends p e /\ X e = x).
Definition reachY (p : path RNum) (y : R) : Prop :=
  (exists g r x, p = g :: r /\ onSeg g x y) \/ (exists x, inDrawing p x y) \/ (exists e, ends p e /\ Y e = y).
(** k copies of width w are the most that fit in the room m; a room that is not positive stands for no limit given: one copy *)
Definition most (m w : R) (k : nat) : Prop := (0 < m -> INR k * w <= m < (INR k + 1) * w) /\ (m <= 0 -> k = 1%nat).
(** the drawings of the copies: column after column, in a grid of cells W wide and H high *)
Definition grid (f : option (Z * Z) -> path RNum) (W H : R) (nx ny : nat) : list (seg RNum) :=
  flat_map (fun ix => flat_map (fun iy => map (displaced (INR ix * W) (INR iy * H)) (drawn (f (Some (Z.of_nat ix, Z.of_nat iy))))) (seq 0 ny)) (seq 0 nx).

Lemma greatest_unique S a b : greatest S a -> greatest S b -> a = b.
Proof. intros [A1 A2] [B1 B2]. pose proof (A2 _ B1). pose proof (B2 _ A1). lra. Qed.
Lemma ends_last g r : ends (g :: r) (send (last (g :: r) g)).
Proof. destruct (snoc_of (g :: r)) as (i & z & E); [discriminate|]. rewrite E, last_last. exists i, z. auto. Qed.
Lemma ends_unique p a b : ends p a -> ends p b -> a = b.
Proof. intros (r & g & -> & <-) (r' & g' & E & <-). apply app_inj_tail in E. destruct E as [_ ->]. reflexivity. Qed.
Lemma inDrawing_tail g r x y : inDrawing (g :: r) x y -> onSeg g x y \/ inDrawing r x y.
Proof. intros (h & [->|Hh] & V & O); [left; auto|right; exists h; auto]. Qed.
Lemma inDrawing_cons g r x y : inDrawing r x y -> inDrawing (g :: r) x y.
Proof. intros (h & Hh & V & O). exists h. split; [right; auto|auto]. Qed.

Section Co.
Variable co : CurveOps RNum.
Hypothesis HB : boxOk co.
Lemma box_greatest p : Forall tame p -> starts p (pnt 0 0) ->
  exists W H, greatest (reachX p) W /\ greatest (reachY p) H /\ BoundingBoxWithWhitespace co p = Ok (pnt 0 0, pnt W H).
Proof.
  intros HT (g & r & -> & Es). destruct (BoundingBoxWithWhitespace_spec co HB g r HT) as (tl & br & (F1 & F2 & (RX1 & RX2 & RX3) & (RY1 & RY2 & RY3)) & E). rewrite E. clear E. rewrite Es, pnt_X, pnt_Y, !Rmin_left by lra.
  pose proof (ends_last g r) as EL. set (e := send (last (g :: r) g)) in *. exists (Rmax (X br) (X e)), (Rmax (Y br) (Y e)). split; [|split; [|reflexivity]].
  - split.
    + unfold Rmax. destruct (Rle_dec _ _); [right; right; eauto|]. destruct RX3 as (y & [O|D]); [left; eauto 6|right; left; exists y; apply inDrawing_cons; exact D].
    + intros x [(g' & r' & y & Eq & O)|[(y & D)|(e' & He & <-)]].
      * injection Eq as <- <-. eapply Rle_trans; [|apply Rmax_l]. apply RX1. exists y. left. exact O.
      * eapply Rle_trans; [|apply Rmax_l]. apply RX1. exists y. apply inDrawing_tail in D. exact D.
      * rewrite (ends_unique _ _ _ He EL). apply Rmax_r.
  - split.
    + unfold Rmax. destruct (Rle_dec _ _); [right; right; eauto|]. destruct RY3 as (x & [O|D]); [left; eauto 6|right; left; exists x; apply inDrawing_cons; exact D].
    + intros y [(g' & r' & x & Eq & O)|[(x & D)|(e' & He & <-)]].
      * injection Eq as <- <-. eapply Rle_trans; [|apply Rmax_l]. apply RY1. exists x. left. exact O.
      * eapply Rle_trans; [|apply Rmax_l]. apply RY1. exists x. apply inDrawing_tail in D. exact D.
      * rewrite (ends_unique _ _ _ He EL). apply Rmax_r.
Qed.
Lemma box_reach p W H : Forall tame p -> starts p (pnt 0 0) -> greatest (reachX p) W -> greatest (reachY p) H ->
  BoundingBoxWithWhitespace co p = Ok (pnt 0 0, pnt W H).
Proof.
  intros HT HS GW GH. destruct (box_greatest p HT HS) as (W' & H' & GW' & GH' & E). rewrite (greatest_unique _ _ _ GW GW'), (greatest_unique _ _ _ GH GH'). exact E.
Qed.

Lemma iterations m w (k : nat) : most m w k -> 0 < m -> 0 < w -> INR k < 2 ^ 63 -> nfloor RFloor (div (Fin m : T RNum) (Fin w)) = Z.of_nat k.
Proof.
  intros [H _] Hm Hw Hk. rewrite fdiv by lra. specialize (H Hm). assert (Bz : (Z.of_nat k < 2 ^ 63)%Z) by (apply lt_IZR; rewrite <- INR_IZR_INZ; change (2 ^ 63)%Z with 9223372036854775808%Z; lra).
  apply RFloor_int; [|lia]. rewrite <- INR_IZR_INZ. split.
  - apply (Rmult_le_reg_r w); [lra|]. unfold Rdiv. rewrite Rmult_assoc, Rinv_l by lra. lra.
  - apply (Rmult_lt_reg_r w); [lra|]. unfold Rdiv. rewrite Rmult_assoc, Rinv_l by lra. lra.
Qed.
Lemma upto_nat k : upto (Z.of_nat k) = map Z.of_nat (seq 0 k).
Proof. unfold upto. rewrite Nat2Z.id. reflexivity. Qed.

Definition cells (nx ny : nat) : list (Z * Z) := list_prod (map Z.of_nat (seq 0 nx)) (map Z.of_nat (seq 0 ny)).
Definition copyAt (f : option (Z * Z) -> path RNum) (W H : R) (c : Z * Z) : path RNum := shifted (IZR (fst c) * W) (IZR (snd c) * H) (f (Some c)).
Lemma RepeatRender_ok f W H m k (nx ny : nat) :
  (forall c, Forall tame (f c) /\ starts (f c) (pnt 0 0)) ->
  greatest (reachX (f None)) W -> greatest (reachY (f None)) H -> (0 < m -> 0 < W) -> (0 < k -> 0 < H) -> most m W nx -> most k H ny -> INR nx < 2 ^ 63 -> INR ny < 2 ^ 63 ->
  RepeatRender co RFloor (fun c => Ok (f c)) (Fin m) (Fin k) =
  match map (copyAt f W H) (cells nx ny) with
  | [] => Err
  | ps => bind (JoinPaths ps) (fun p => bind (PathCursor p) (fun c => Ok (p, c)))
  end.
Proof.
  intros Hf GW GH PW PH Mx My Bx By. destruct (Hf None) as [HT HS]. unfold RepeatRender. cbn [bind]. rewrite (box_reach _ W H HT HS GW GH). cbn [bind px py pnt]. fin. rewrite !Rminus_0_r.
  assert (E : forall m w (n : nat), most m w n -> (0 < m -> 0 < w) -> INR n < 2 ^ 63 -> (if gtb (Fin m : T RNum) (Fin 0) then nfloor RFloor (div (Fin m : T RNum) (Fin w)) else 1%Z) = Z.of_nat n).
  { intros m' w n Hm Hw Hn. unfold gtb. fin. destruct (Rltb_spec 0 m'); [apply iterations; auto|]. destruct Hm as [_ Hm]. rewrite Hm by lra. reflexivity. }
    rewrite (E m W nx), (E k H ny) by auto. rewrite !upto_nat. fold (cells nx ny).
  rewrite (each_ok _ (copyAt f W H)); [destruct (map (copyAt f W H) (cells nx ny)); reflexivity|]. intros (ix, iy) _. unfold copyAt. cbn [fst snd]. fin. rewrite NewPoint_fin. destruct (Hf (Some (ix, iy))). apply MoveT_start; auto.
Qed.
End Co.

Lemma concat_map_prod {A B C} (g : A * B -> list C) la lb : concat (map g (list_prod la lb)) = flat_map (fun a => flat_map (fun b => g (a, b)) lb) la.
Proof.
  induction la as [|a la IH]; [reflexivity|]. cbn [list_prod flat_map]. rewrite map_app, concat_app, IH, map_map. f_equal. rewrite flat_map_concat_map. reflexivity.
Qed.
Lemma flat_map_map {A B C} (g : B -> list C) (h : A -> B) l : flat_map g (map h l) = flat_map (fun a => g (h a)) l.
Proof. rewrite !flat_map_concat_map, map_map. reflexivity. Qed.
Lemma grid_cells f W H nx ny : concat (map drawn (map (copyAt f W H) (cells nx ny))) = grid f W H nx ny.
Proof.
  rewrite map_map. unfold cells. rewrite concat_map_prod, flat_map_map. unfold grid. apply flat_map_ext. intros ix. rewrite flat_map_map. apply flat_map_ext. intros iy.
  unfold copyAt. cbn [fst snd]. rewrite shifted_drawn, <- !INR_IZR_INZ. reflexivity.
Qed.

Lemma prod_snoc {A B} (la : list A) (lb : list B) a b : exists l, list_prod (la ++ [a]) (lb ++ [b]) = (l ++ [(a, b)])%list.
Proof.
  induction la as [|x la [l IH]]; cbn [app list_prod]; [rewrite app_nil_r, map_app; eexists; reflexivity|]. rewrite IH, app_assoc. eexists. reflexivity.
Qed.
Lemma cells_last nx ny : (0 < nx)%nat -> (0 < ny)%nat -> exists l, cells nx ny = (l ++ [(Z.of_nat (nx - 1), Z.of_nat (ny - 1))])%list.
Proof.
  intros Hx Hy. unfold cells. assert (S : forall n, (0 < n)%nat -> seq 0 n = (seq 0 (n - 1) ++ [(n - 1)%nat])%list).
  { intros n Hn. destruct n; [lia|]. rewrite seq_S. cbn [Nat.sub]. rewrite Nat.sub_0_r. reflexivity. }
  rewrite (S nx Hx), (S ny Hy), !map_app. apply prod_snoc.
Qed.
Lemma ends_app t p e : ends p e -> ends (t ++ p) e.
Proof. intros (r & g & -> & E). exists (t ++ r)%list, g. rewrite app_assoc. auto. Qed.

(** [f None] is what the component draws when it is measured and [f (Some (ix, iy))] what it draws for column ix, row iy; each starts at (0,0).
    Coordinates below 2^61, for the boxes of shifted curves. *)
Theorem C60_copies tr bm fuel f W H maxX maxY (nx ny : nat) :
  (forall c, Forall (inside (2 ^ 61)) (f c) /\ starts (f c) (pnt 0 0)) ->
  greatest (reachX (f None)) W -> greatest (reachY (f None)) H ->
  (0 < maxX -> 0 < W) -> (0 < maxY -> 0 < H) -> most maxX W nx -> most maxY H ny ->
  INR nx < 2 ^ 63 -> INR ny < 2 ^ 63 -> INR nx * W <= 2 ^ 61 -> INR ny * H <= 2 ^ 61 ->
  ((0 < nx)%nat -> (0 < ny)%nat -> exists q c, RepeatRender (BezierOps tr bm fuel) RFloor (fun c => Ok (f c)) (Fin maxX) (Fin maxY) = Ok (q, c) /\ drawn q = grid f W H nx ny /\ ends q c /\
     (forall x y, ends (f (Some (Z.of_nat (nx - 1), Z.of_nat (ny - 1)))) (pnt x y) -> c = pnt (x + INR (nx - 1) * W) (y + INR (ny - 1) * H))) /\
  ((nx = 0%nat \/ ny = 0%nat) -> RepeatRender (BezierOps tr bm fuel) RFloor (fun c => Ok (f c)) (Fin maxX) (Fin maxY) = Err).
Proof.
  intros Hf GW GH PW PH Mx My Bx By Lx Ly.
  assert (W0 : 0 <= W) by (destruct (Hf None) as [_ (g & r & Ep & Es)]; destruct GW as [_ G]; apply G; left; exists g, r, 0; split; [exact Ep|]; exists 0; split; [lra|]; destruct g; cbn in Es; subst; rewrite !pnt_X, !pnt_Y; unfold cubic; split; ring).
  assert (H0 : 0 <= H) by (destruct (Hf None) as [_ (g & r & Ep & Es)]; destruct GH as [_ G]; apply G; left; exists g, r, 0; split; [exact Ep|]; exists 0; split; [lra|]; destruct g; cbn in Es; subst; rewrite !pnt_X, !pnt_Y; unfold cubic; split; ring).
  assert (Hf' : forall c, Forall tame (f c) /\ starts (f c) (pnt 0 0)) by (intros c; destruct (Hf c) as [A B]; split; [apply (Forall_inside_tame (2 ^ 61)); [lra|exact A]|exact B]).
  rewrite (RepeatRender_ok _ (BezierOps_boxOk tr bm fuel) f W H maxX maxY nx ny) by auto. split.
  - intros Nx Ny. assert (K : forall c, In c (cells nx ny) -> copyAt f W H c <> [] /\ Forall tame (copyAt f W H c)).
    { intros (ix, iy) Hc. unfold cells in Hc. apply in_prod_iff in Hc. rewrite !in_map_iff in Hc. destruct Hc as ((i & <- & Hi) & (j & <- & Hj)). apply in_seq in Hi, Hj. unfold copyAt. cbn [fst snd]. rewrite <- !INR_IZR_INZ. destruct (Hf (Some (Z.of_nat i, Z.of_nat j))) as [A B]. split.
      - apply shifted_nonempty. destruct B as (g & r & -> & _). discriminate.
      - apply (Forall_inside_tame (2 ^ 61 + 2 ^ 61)); [lra|]. assert (Q : forall i n w, (i < n)%nat -> 0 <= w -> INR n * w <= 2 ^ 61 -> Rabs (INR i * w) <= 2 ^ 61).
        { intros i' n w Hn Hw Hb. rewrite Rabs_pos_eq by (apply Rmult_le_pos; [apply pos_INR|auto]). apply lt_INR in Hn. nra. }
        apply shifted_inside; [lra| | |exact A]; [apply (Q i nx)|apply (Q j ny)]; auto; lia. }
    destruct (cells nx ny) as [|c0 cs] eqn:EC.
    { exfalso. assert (length (cells nx ny) = (nx * ny)%nat) by (unfold cells; rewrite prod_length, !map_length, !seq_length; reflexivity). rewrite EC in H1. cbn in H1. nia. }
    cbn [map]. destruct (JoinPaths_spec (copyAt f W H c0) (map (copyAt f W H) cs)) as (q & E & D & T & (t & Et) & (t' & Et')).
    { apply (Forall_map (copyAt f W H) (fun q => q <> []) (c0 :: cs)). apply Forall_forall. intros c Hc. apply K. exact Hc. }
    { apply (Forall_map (copyAt f W H) (Forall tame) (c0 :: cs)). apply Forall_forall. intros c Hc. apply K. exact Hc. }
    rewrite E. cbn [bind]. assert (Nq : q <> []) by (rewrite Et; destruct (K c0) as [K1 _]; [left; auto|]; destruct (copyAt f W H c0); [congruence|discriminate]).
    destruct (snoc_of q Nq) as (r & g & Eq). assert (EP : PathCursor q = Ok (send g)) by (unfold PathCursor; rewrite Eq, Tail_snoc; reflexivity). rewrite EP. cbn [bind]. eexists _, _. split; [reflexivity|]. split; [rewrite D, <- grid_cells, EC; reflexivity|]. assert (Eg : ends q (send g)) by (exists r, g; auto). split; [exact Eg|].
    intros x y He. apply (ends_unique q); [exact Eg|]. rewrite Et'. assert (EL : last (copyAt f W H c0 :: map (copyAt f W H) cs) [] = copyAt f W H (Z.of_nat (nx - 1), Z.of_nat (ny - 1))).
    { change (copyAt f W H c0 :: map (copyAt f W H) cs) with (map (copyAt f W H) (c0 :: cs)). rewrite <- EC. destruct (cells_last nx ny Nx Ny) as (cl & ->). rewrite map_app. cbn [map]. apply last_last. }
    rewrite EL. unfold copyAt. cbn [fst snd]. rewrite <- !INR_IZR_INZ. apply ends_app. apply shifted_ends. exact He.
  - intros Z. assert (EC : cells nx ny = []) by (destruct (cells nx ny) eqn:EC; [reflexivity|]; exfalso; assert (L : length (cells nx ny) = (nx * ny)%nat) by (unfold cells; rewrite prod_length, !map_length, !seq_length; reflexivity); rewrite EC in L; cbn in L; destruct Z; subst; nia).
    rewrite EC. reflexivity.
Qed.

(** if what is drawn has no negative coordinates and the copies are no larger than what was measured, each copy stays in its cell, and the cells in the room *)
Theorem C60_fits (f : option (Z * Z) -> path RNum) W H maxX maxY nx ny x y : 0 <= W -> 0 <= H -> 0 < maxX -> 0 < maxY -> most maxX W nx -> most maxY H ny ->
  (forall c x y, inDrawing (f c) x y -> 0 <= x <= W /\ 0 <= y <= H) ->
  (exists g, In g (grid f W H nx ny) /\ onSeg g x y) -> 0 <= x <= maxX /\ 0 <= y <= maxY.
Proof.
  intros W0 H0 Px Py [Mx _] [My _] Hd (g & Hg & O). specialize (Mx Px). specialize (My Py). unfold grid in Hg. apply in_flat_map in Hg. destruct Hg as (ix & Hx & Hg). apply in_flat_map in Hg. destruct Hg as (iy & Hy & Hg).
  apply in_map_iff in Hg. destruct Hg as (h & <- & Hh). rewrite <- displaced_aff in O. apply onSeg_aff in O. destruct O as (x' & y' & O & -> & ->). rewrite diag_X, diag_Y, !Rmult_1_l.
  assert (D : inDrawing (f (Some (Z.of_nat ix, Z.of_nat iy))) x' y') by (apply inDrawing_drawn; exists h; auto). apply Hd in D. apply in_seq in Hx, Hy. destruct Hx as [_ Hx]. destruct Hy as [_ Hy]. cbn in Hx, Hy.
  assert (INR ix + 1 <= INR nx) by (rewrite <- S_INR; apply le_INR; lia). assert (INR iy + 1 <= INR ny) by (rewrite <- S_INR; apply le_INR; lia). pose proof (pos_INR ix). pose proof (pos_INR iy). nra.
Qed.

Lemma onSeg_start g : onSeg g (X (sstart g)) (Y (sstart g)).
Proof. exists 0. split; [lra|]. destruct g; cbn [sstart]; unfold cubic; split; ring. Qed.
Lemma onSeg_end g : onSeg g (X (send g)) (Y (send g)).
Proof. exists 1. split; [lra|]. destruct g; cbn [send]; unfold cubic; split; ring. Qed.
(** for paths of lines it is enough to look at the ends of the segments *)
Definition straight (g : seg RNum) : Prop := match g with Curve _ _ _ _ => False | _ => True end.
Lemma straight_reach p : Forall straight p -> forall lo hi, Forall (fun g => lo <= X (sstart g) <= hi /\ lo <= X (send g) <= hi) p -> forall x, reachX p x -> lo <= x <= hi.
Proof.
  intros HS lo hi HX x. rewrite Forall_forall in HS, HX.
  assert (K : forall g y, In g p -> onSeg g x y -> lo <= x <= hi).
  { intros g y Hg (t & Ht & O). specialize (HS _ Hg). specialize (HX _ Hg). destruct g; cbn in *; try tauto; destruct O as [-> _]; nra. }
  intros [(g & r & y & -> & O)|[(y & g & Hg & _ & O)|(e & (r & g & -> & <-) & <-)]].
  - apply (K g y); [left|]; auto.
  - apply (K g y); auto.
  - apply HX. apply in_or_app. right. left. auto.
Qed.
Lemma straight_reachY p : Forall straight p -> forall lo hi, Forall (fun g => lo <= Y (sstart g) <= hi /\ lo <= Y (send g) <= hi) p -> forall y, reachY p y -> lo <= y <= hi.
Proof.
  intros HS lo hi HX x. rewrite Forall_forall in HS, HX.
  assert (K : forall g y, In g p -> onSeg g y x -> lo <= x <= hi).
  { intros g y Hg (t & Ht & O). specialize (HS _ Hg). specialize (HX _ Hg). destruct g; cbn in *; try tauto; destruct O as [_ ->]; nra. }
  intros [(g & r & y & -> & O)|[(y & g & Hg & _ & O)|(e & (r & g & -> & <-) & <-)]].
  - apply (K g y); [left|]; auto.
  - apply (K g y); auto.
  - apply HX. apply in_or_app. right. left. auto.
Qed.
Ltac ends_nums := repeat (apply Forall_cons; [cbn [sstart send]; rewrite ?pnt_X, ?pnt_Y; lra|]); apply Forall_nil.
Ltac nears := repeat first [apply Forall_cons | apply Forall_nil]; cbn [inside]; repeat split; rewrite ?pnt_X, ?pnt_Y; apply Rabs_def1; lra.

(** a zigzag two wide and one high, repeated in a room seven wide: three copies *)
Definition zig : path RNum := [Move (pnt 0 0) (pnt 0 0); Line (pnt 0 0) (pnt 1 1); Line (pnt 1 1) (pnt 2 0)].
Lemma zig_W : greatest (reachX zig) 2.
Proof.
  split; [right; right; exists (pnt 2 0); split; [exists [Move (pnt 0 0) (pnt 0 0); Line (pnt 0 0) (pnt 1 1)]; eexists; split; reflexivity|reflexivity]|].
  intros x H. apply (straight_reach zig) with (lo := 0) (hi := 2) in H; [lra|repeat constructor|ends_nums].
Qed.
Lemma zig_H : greatest (reachY zig) 1.
Proof.
  split; [right; left; exists 1; exists (Line (pnt 0 0) (pnt 1 1)); split; [cbn; auto|]; split; [exact I|]; apply (onSeg_end (Line (pnt 0 0) (pnt 1 1)))|].
  intros x H. apply (straight_reachY zig) with (lo := 0) (hi := 1) in H; [lra|repeat constructor|ends_nums].
Qed.
Example C60_example tr bm fuel : exists q, RepeatRender (BezierOps tr bm fuel) RFloor (fun _ => Ok zig) (Fin 7) (Fin 0) = Ok (q, pnt 6 0) /\
  drawn q = [Line (pnt 0 0) (pnt 1 1); Line (pnt 1 1) (pnt 2 0); Line (pnt 2 0) (pnt 3 1); Line (pnt 3 1) (pnt 4 0); Line (pnt 4 0) (pnt 5 1); Line (pnt 5 1) (pnt 6 0)].
Proof.
  destruct (C60_copies tr bm fuel (fun _ => zig) 2 1 7 0 3 1) as [K _]; try (cbn; lra).
  - intros c. split; [nears|]. eexists _, _. split; reflexivity.
  - exact zig_W.
  - exact zig_H.
  - split; intros; cbn; lra.
  - split; intros; [lra|reflexivity].
  - destruct K as (q & c & E & D & HE & Hc); [lia|lia|]. unfold grid in D. cbn in D.
    assert (DD : drawn q = [Line (pnt 0 0) (pnt 1 1); Line (pnt 1 1) (pnt 2 0); Line (pnt 2 0) (pnt 3 1); Line (pnt 3 1) (pnt 4 0); Line (pnt 4 0) (pnt 5 1); Line (pnt 5 1) (pnt 6 0)]).
    { rewrite D. unfold pnt. repeat (f_equal; try lra). }
    exists q. split; [|exact DD]. rewrite E. do 2 f_equal. rewrite (Hc 2 0); [cbn; unfold pnt; repeat (f_equal; try lra)|]. exists [Move (pnt 0 0) (pnt 0 0); Line (pnt 0 0) (pnt 1 1)]. eexists. split; reflexivity.
Qed.

(** A drawing that reaches to the left of its start is measured from its start only: the copies overlap and do not fit. *)
Definition hook : path RNum := [Move (pnt 0 0) (pnt 0 0); Line (pnt 0 0) (pnt (-1) 0); Line (pnt (-1) 0) (pnt 2 0)].
Theorem C60_left_refuted : forall tr bm fuel, exists q c, RepeatRender (BezierOps tr bm fuel) RFloor (fun _ => Ok hook) (Fin 2) (Fin 0) = Ok (q, c) /\
  exists x y x' y', inDrawing q x y /\ inDrawing q x' y' /\ x' - x > 2.
Proof.
  intros tr bm fuel. destruct (C60_copies tr bm fuel (fun _ => hook) 2 0 2 0 1 1) as [K _]; try (cbn; lra).
  - intros c. split; [nears|]. eexists _, _. split; reflexivity.
  - split; [right; right; exists (pnt 2 0); split; [exists [Move (pnt 0 0) (pnt 0 0); Line (pnt 0 0) (pnt (-1) 0)]; eexists; split; reflexivity|reflexivity]|].
    intros x H. apply (straight_reach hook) with (lo := -1) (hi := 2) in H; [lra|repeat constructor|ends_nums].
  - split; [right; right; exists (pnt 2 0); split; [exists [Move (pnt 0 0) (pnt 0 0); Line (pnt 0 0) (pnt (-1) 0)]; eexists; split; reflexivity|reflexivity]|].
    intros x H. apply (straight_reachY hook) with (lo := 0) (hi := 0) in H; [lra|repeat constructor|ends_nums].
  - split; intros; cbn; lra.
  - split; intros; [lra|reflexivity].
  - destruct K as (q & c & E & D & _); [lia|lia|]. exists q, c. split; [exact E|]. unfold grid in D. cbn in D.
    assert (DD : drawn q = [Line (pnt 0 0) (pnt (-1) 0); Line (pnt (-1) 0) (pnt 2 0)]) by (rewrite D; unfold pnt; repeat (f_equal; try lra)).
    exists (-1), 0, 2, 0. split; [|split; [|lra]]; apply inDrawing_drawn; exists (Line (pnt (-1) 0) (pnt 2 0)); rewrite DD; (split; [cbn; auto|]).
    + apply (onSeg_start (Line (pnt (-1) 0) (pnt 2 0))).
    + apply (onSeg_end (Line (pnt (-1) 0) (pnt 2 0))).
Qed.
