(** C61: an edge leads from its start to its end. *)
From Coq Require Import List ZArith Bool Reals Lra Lia.
From Verif Require Import Num RealNum RealTrig PathModel DrawModel SegOps TransformsModel Bezier GeomTransforms PathSpec GeomSpec PathProofs BezierProofs GeomProofs AffineProofs HandleProofs RotateProofs Prop_C14 Prop_C38 Prop_C50 Prop_C54 Components CompProofs Prop_C60.
Import ListNotations.
Local Open Scope R_scope.

(** a rigid motion without reflection, given by the cosine and sine of its turn and its displacement *)
Definition motion (c s u v : R) (q : Pt RNum) : Pt RNum := pnt (c * X q - s * Y q + u) (s * X q + c * Y q + v).
Definition carried (m : Pt RNum -> Pt RNum) (g : seg RNum) : seg RNum :=
  match g with Move s e => Move (m s) (m e) | Line s e => Line (m s) (m e) | Curve s cs e ce => Curve (m s) (m cs) (m e) (m ce) end.
(** the motion that takes the horizontal stretch of length L to the right of [a] to the stretch from (x1,y1) to (x2,y2) *)
Definition along (a : Pt RNum) (L x1 y1 x2 y2 : R) (m : Pt RNum -> Pt RNum) : Prop :=
  (exists c s u v, c ^ 2 + s ^ 2 = 1 /\ forall q, m q = motion c s u v q) /\ m a = pnt x1 y1 /\ m (pnt (X a + L) (Y a)) = pnt x2 y2.

Lemma affSeg_carried A g : affSeg A g = carried (affPt A) g. Proof. destruct g; reflexivity. Qed.
Lemma carried_ext m m' g : (forall q, m q = m' q) -> carried m g = carried m' g. Proof. intros H. destruct g; cbn; rewrite !H; reflexivity. Qed.

Lemma dist_pos x1 y1 x2 y2 : 0 <= dist x1 y1 x2 y2. Proof. apply sqrt_pos. Qed.
Lemma turn_to x1 y1 x2 y2 : let t := 180 / PI * Ratan2 (y2 - y1) (x2 - x1) * PI / 180 in
  dist x1 y1 x2 y2 * cos t = x2 - x1 /\ dist x1 y1 x2 y2 * sin t = y2 - y1.
Proof.
  cbn zeta. replace (180 / PI * Ratan2 (y2 - y1) (x2 - x1) * PI / 180) with (Ratan2 (y2 - y1) (x2 - x1)) by (field; apply PI_neq0).
  unfold dist. replace ((x2 - x1) ^ 2 + (y2 - y1) ^ 2) with ((x2 - x1) * (x2 - x1) + (y2 - y1) * (y2 - y1)) by ring.
  destruct (Req_dec (x2 - x1) 0) as [E1|E1]; [destruct (Req_dec (y2 - y1) 0) as [E2|E2]|].
  - rewrite E1, E2. replace (0 * 0 + 0 * 0) with 0 by ring. rewrite sqrt_0. lra.
  - destruct (Ratan2_spec (x2 - x1) (y2 - y1)) as [Q1 Q2]; [right; exact E2|]. split; symmetry; assumption.
  - destruct (Ratan2_spec (x2 - x1) (y2 - y1)) as [Q1 Q2]; [left; exact E1|]. split; symmetry; assumption.
Qed.

Lemma affSeg_same A B g : finiteSeg g -> A = B -> affSeg A g = affSeg B g. Proof. intros _ ->. reflexivity. Qed.
Lemma placeEdge_spec co h p a x1 y1 x2 y2 : Forall finiteSeg p -> finitePt a -> PointPathAttribute co h NoSub p = Ok a ->
  exists A, placeEdge co RTrig (pnt x1 y1) (pnt x2 y2) h p = Ok (canon (map (affSeg A) p)) /\ along a (dist x1 y1 x2 y2) x1 y1 x2 y2 (affPt A).
Proof.
  intros F Fa E. unfold placeEdge. rewrite E. cbn [bind]. rewrite LineAngle_fin by apply finitePt_pnt. rewrite !pnt_X, !pnt_Y. destruct (turn_to x1 y1 x2 y2) as [T1 T2]. set (d := 180 / PI * Ratan2 (y2 - y1) (x2 - x1)) in *.
  exists (affComp (diag 1 1 (x1 - X a) (y1 - Y a)) (rotAbout d (X a) (Y a))). split.
  - fin. cbn [px py pnt]. rewrite (px_fin _ Fa), (py_fin _ Fa). fin. destruct (Reqb_spec d 0) as [D0|D0]; cbn [negb bind].
    + rewrite Shift_canon by exact F. do 2 f_equal. apply map_ext. intros g. f_equal. rewrite D0. unfold rotAbout. replace (0 * PI / 180) with 0 by field. rewrite cos_0, sin_0. apply aff_ext; cbn; ring.
    + rewrite (RotateT_mapPoints co d h p a F Fa E). cbn [bind]. rewrite Shift_canon by (apply canon_finite, map_finite). rewrite canon_map_canon, map_map. do 2 f_equal. apply map_ext. intros g. apply affSeg_comp.
  - set (t := d * PI / 180) in *. split; [|split].
    + exists (cos t), (sin t), (X a - X a * cos t + Y a * sin t + (x1 - X a)), (Y a - X a * sin t - Y a * cos t + (y1 - Y a)). split; [pose proof (sin2_cos2 t) as Q; unfold Rsqr in Q; nra|].
      intros q. unfold affPt, motion, affX, affY. cbn. fold t. unfold pnt. f_equal; f_equal; ring.
    + unfold affPt, affX, affY. cbn. fold t. unfold pnt. f_equal; f_equal; ring.
    + unfold affPt, affX, affY. cbn. fold t. unfold pnt. f_equal; f_equal.
      * transitivity (x1 + dist x1 y1 x2 y2 * cos t); [ring|]. rewrite T1. ring.
      * transitivity (y1 + dist x1 y1 x2 y2 * sin t); [ring|]. rewrite T2. ring.
Qed.

(** basic_edge: whatever the children draw, joined, is carried as a whole; the handle, the origin unless another one is asked for, goes to the start, the point
    one length to its right to the end *)
Theorem C61_basic_edge bm fuel cs h ps a x1 y1 x2 y2 cursor :
  let co := BezierOps RTrig bm fuel in
  renderChain (cs (Fin (dist x1 y1 x2 y2))) cursor = Ok ps -> ps <> [] -> Forall (fun q => q <> []) ps -> Forall (Forall tame) ps ->
  (forall q, JoinPaths ps = Ok q -> PointPathAttribute co h NoSub q = Ok a) -> finitePt a ->
  exists q c m, BasicEdge co RTrig [] cs (pnt x1 y1) (pnt x2 y2) h cursor = Ok (q, c) /\ along a (dist x1 y1 x2 y2) x1 y1 x2 y2 m /\
    drawn q = map (carried m) (concat (map drawn ps)) /\ ends q c /\ (forall e, ends (last ps []) e -> c = m e).
Proof.
  intros co EC HN Hne HT HA Fa. destruct ps as [|p ps]; [congruence|]. destruct (JoinPaths_spec p ps Hne HT) as (q & EJ & D & T & (t & Et) & (t' & Et')). specialize (HA _ EJ).
  assert (Fq : Forall finiteSeg q) by (apply Forall_tame_finite; exact T).
  destruct (placeEdge_spec co h q a x1 y1 x2 y2 Fq Fa HA) as (A & EP & AL). unfold BasicEdge. rewrite length_fin, EC. cbn [bind]. rewrite EJ. cbn [bind]. fold co. rewrite EP. cbn [bind].
  unfold HandleTransforms. cbn [applyTransforms bind].
  assert (Nq : q <> []) by (rewrite Et; inversion Hne as [|? ? Np _]; destruct p; [congruence|discriminate]).
  destruct (snoc_of q Nq) as (r & g & Eg). assert (Eq : ends q (send g)) by (exists r, g; auto). apply (map_ends A), canon_ends in Eq. destruct Eq as (r' & g' & Er & Eg').
  assert (EPC : PathCursor (canon (map (affSeg A) q)) = Ok (send g')) by (unfold PathCursor; rewrite Er, Tail_snoc; reflexivity). rewrite EPC. cbn [bind].
  eexists _, _, (affPt A). split; [reflexivity|]. split; [exact AL|]. split.
  - rewrite canon_drawn, drawn_map_aff, D. apply map_ext. intros x. apply affSeg_carried.
  - split; [rewrite Er; exists r', g'; auto|]. intros e He. rewrite Eg'. f_equal. apply (ends_unique q); [exists r, g; auto|]. rewrite Et'. apply ends_app. exact He.
Qed.

(** what the parts of an edge must be: drawn from (0,0) to (w,0), nothing to the right of that *)
Definition level (w : R) (p : path RNum) : Prop := Forall (inside (2 ^ 61)) p /\ starts p (pnt 0 0) /\ ends p (pnt w 0).
Lemma repeat_edge bm fuel (f : option (Z * Z) -> path RNum) left right W pl pr x1 y1 x2 y2 (n : nat) :
  let co := BezierOps RTrig bm fuel in let L := dist x1 y1 x2 y2 in let room := L - (pl + pr) in
  let lw := (room - INR n * W) / 2 + pl in let rw := (room - INR n * W) / 2 + pr in
  0 < W -> Rabs lw <= 2 ^ 61 -> Rabs (lw + INR n * W) <= 2 ^ 61 -> INR n * W <= 2 ^ 61 -> INR n < 2 ^ 63 ->
  (0 < n)%nat -> most room W n ->
  (forall c, level W (f c)) -> (forall c x, reachX (f c) x -> x <= W) ->
  level lw (left lw) -> level rw (right rw) ->
  exists q m, RepeatEdge co RTrig RFloor [] (fun w => Ok (left (val w))) (fun w => Ok (right (val w))) (fun c => Ok (f c)) (pnt x1 y1) (pnt x2 y2) AOrigin (Fin pl) (Fin pr) = Ok (q, pnt x2 y2) /\
    along (pnt 0 0) L x1 y1 x2 y2 m /\
    drawn q = map (carried m) (drawn (left lw) ++ flat_map (fun i => map (displaced (lw + INR i * W) 0) (drawn (f (Some (Z.of_nat i, 0%Z))))) (seq 0 n)
                               ++ map (displaced (lw + INR n * W) 0) (drawn (right rw))).
Proof.
  intros co L room lw rw W0 Bl Br BL Bn N0 Mx Hf Hr HL HR. pose proof (BezierOps_boxOk RTrig bm fuel) as HB. fold co in HB. pose proof (pos_INR n) as Pn.
  assert (TT : forall b p, b <= 2 ^ 63 -> Forall (inside b) p -> Forall tame p) by (intros; eapply Forall_inside_tame; eauto).
  assert (B61 : 2 ^ 61 <= 2 ^ 63) by lra.
  assert (Hft : forall c, Forall tame (f c) /\ starts (f c) (pnt 0 0)) by (intros c; destruct (Hf c) as (A & B & _); split; [apply (TT _ _ B61 A)|exact B]).
  assert (GW : greatest (reachX (f None)) W) by (split; [destruct (Hf None) as (_ & _ & E); right; right; eexists; split; [exact E|reflexivity]|intros x; apply Hr]).
  destruct (box_greatest co HB (f None)) as (_ & H & _ & GH & _); [apply Hft|apply Hft|].
  assert (My : most 0 H 1) by (split; intros; [lra|reflexivity]).
  assert (Sum : lw + INR n * W + rw = L) by (unfold lw, rw, room; lra).
  (* the copies *)
  set (ps := map (copyAt f W H) (cells n 1)).
  assert (EC : exists c0 cs, cells n 1 = c0 :: cs /\ c0 = (0%Z, 0%Z)) by (destruct n; [lia|]; cbn; eauto). destruct EC as (c0 & cs & EC & Ec0).
  assert (K : forall c, In c (cells n 1) -> copyAt f W H c <> [] /\ Forall (inside (2 ^ 61 + 2 ^ 61)) (copyAt f W H c)).
  { intros (ix, iy) Hc. unfold cells in Hc. apply in_prod_iff in Hc. rewrite !in_map_iff in Hc. destruct Hc as ((i & <- & Hi) & (j & <- & Hj)). apply in_seq in Hi, Hj. assert (j = 0)%nat by lia. subst j. unfold copyAt. cbn [fst snd]. rewrite <- !INR_IZR_INZ. destruct (Hf (Some (Z.of_nat i, Z.of_nat 0))) as (A & B & _). split.
    - apply shifted_nonempty. destruct B as (g & r & -> & _). discriminate.
    - apply shifted_inside; [lra| | |exact A].
      + rewrite Rabs_pos_eq by (apply Rmult_le_pos; [apply pos_INR|lra]). assert (INR i < INR n) by (apply lt_INR; lia). nra.
      + cbn [INR]. rewrite Rmult_0_l, Rabs_R0. lra. }
  destruct (JoinPaths_spec (copyAt f W H c0) (map (copyAt f W H) cs)) as (q1 & E1 & D1 & T1 & (t & Et) & (t' & Et')).
  { apply (Forall_map (copyAt f W H) (fun q => q <> []) (c0 :: cs)). apply Forall_forall. intros c Hc. apply K. rewrite EC. exact Hc. }
  { apply (Forall_map (copyAt f W H) (Forall tame) (c0 :: cs)). apply Forall_forall. intros c Hc. apply (TT (2 ^ 61 + 2 ^ 61)); [lra|]. apply K. rewrite EC. exact Hc. }
  assert (I1 : Forall (inside (2 ^ 61 + 2 ^ 61)) q1).
  { eapply JoinPaths_inside; [|exact E1]. apply (Forall_map (copyAt f W H) (Forall (inside (2 ^ 61 + 2 ^ 61))) (c0 :: cs)). apply Forall_forall. intros c Hc. apply K. rewrite EC. exact Hc. }
  assert (D1' : drawn q1 = grid f W H n 1) by (rewrite D1, <- grid_cells, EC; reflexivity).
  assert (S1 : starts q1 (pnt 0 0)).
  { rewrite Et. assert (S0 : starts (copyAt f W H c0) (pnt 0 0)) by (apply shifted_starts; destruct (Hf (Some c0)) as (_ & (g & r & -> & _) & _); discriminate). destruct S0 as (g & r & -> & Es). exists g, (r ++ t)%list. auto. }
  assert (X1 : ends q1 (pnt (INR n * W) 0)).
  { rewrite Et'. apply ends_app. assert (EL : last (copyAt f W H c0 :: map (copyAt f W H) cs) [] = copyAt f W H (Z.of_nat (n - 1), Z.of_nat (1 - 1))).
    { change (copyAt f W H c0 :: map (copyAt f W H) cs) with (map (copyAt f W H) (c0 :: cs)). rewrite <- EC. destruct (cells_last n 1 N0) as (cl & ->); [lia|]. rewrite map_app. cbn [map]. apply last_last. }
    rewrite EL. unfold copyAt. cbn [fst snd]. rewrite <- !INR_IZR_INZ. destruct (Hf (Some (Z.of_nat (n - 1), Z.of_nat (1 - 1)))) as (_ & _ & Ee). apply (shifted_ends (INR (n - 1) * W) (INR (1 - 1) * H)) in Ee.
    assert (Em : INR (n - 1) = INR n - 1) by (rewrite minus_INR by lia; reflexivity). rewrite Em in *. cbn [INR Nat.sub] in *. replace (pnt (INR n * W) 0) with (pnt (W + (INR n - 1) * W) (0 + 0 * H)) by (unfold pnt; f_equal; f_equal; ring). exact Ee. }
  assert (N1 : q1 <> []) by (destruct S1 as (? & ? & -> & _); discriminate).
  assert (ER : RepeatRender co RFloor (fun c => Ok (f c)) (Fin room) (Fin 0) = Ok (q1, pnt (INR n * W) 0)).
  { rewrite (RepeatRender_ok co HB f W H room 0 n 1) by (auto; try lra; cbn; lra). rewrite EC. cbn [map]. rewrite E1. cbn [bind]. destruct X1 as (r & g & Er & Eg). unfold PathCursor. rewrite Er at 1. rewrite Tail_snoc. cbn [bind]. rewrite Eg. reflexivity. }
  assert (G1 : greatest (reachX q1) (INR n * W)).
  { assert (One : 1 <= INR n) by (apply (le_INR 1); lia). split; [right; right; eexists; split; [exact X1|reflexivity]|]. intros x [(g & r & y & Eq & O)|[(y & D)|(e & He & <-)]].
    - destruct (Hf (Some c0)) as (_ & (g0 & r0 & Ef & Es0) & _). unfold copyAt, shifted in Et. rewrite Ef in Et. subst c0. cbn [fst snd] in Et. rewrite Et in Eq. assert (x <= W); [|nra]. destruct g0 as [s e|s e|s cs0 e ce]; cbn in Es0, Eq; injection Eq as <- _.
      + apply (Hr (Some (0%Z, 0%Z))). left. exists (Move s e), r0, y. split; [exact Ef|]. destruct O as (u & Hu & O1 & O2). exists u. split; [exact Hu|]. subst s. rewrite affPt_X, diag_X, pnt_X in O1. rewrite affPt_Y, diag_Y, pnt_Y in O2. rewrite pnt_X, pnt_Y. split; [rewrite O1; ring|rewrite O2; ring].
      + destruct O as (u & Hu & O1 & _). subst s. cbn [sstart affSeg TransformPoints] in O1. rewrite affPt_X, diag_X, !pnt_X in O1. assert (x = 0) by (rewrite O1; ring). lra.
      + destruct O as (u & Hu & O1 & _). subst s. cbn [sstart affSeg TransformPoints] in O1. rewrite affPt_X, diag_X, !pnt_X in O1. assert (x = 0) by (rewrite O1; ring). lra.
    - apply inDrawing_drawn in D. rewrite D1' in D. destruct D as (g & Hg & O). unfold grid in Hg. apply in_flat_map in Hg. destruct Hg as (ix & Hx & Hg). apply in_flat_map in Hg. destruct Hg as (iy & Hy & Hg).
      apply in_map_iff in Hg. destruct Hg as (h & <- & Hh). rewrite <- displaced_aff in O. apply onSeg_aff in O. destruct O as (x' & y' & O & -> & ->). rewrite diag_X, Rmult_1_l.
      assert (x' <= W) by (apply (Hr (Some (Z.of_nat ix, Z.of_nat iy))); right; left; exists y'; apply inDrawing_drawn; exists h; auto). apply in_seq in Hx. assert (INR ix + 1 <= INR n) by (rewrite <- S_INR; apply le_INR; lia). nra.
    - rewrite (ends_unique _ _ _ He X1). rewrite pnt_X. lra. }
  destruct (box_greatest co HB q1 T1 S1) as (W' & H' & GW' & _ & EB). rewrite <- (greatest_unique _ _ _ G1 GW') in EB. clear GW' W'.
  (* left and right *)
  destruct HL as (IL & SL & XL). destruct HR as (IR & SR & XR).
  assert (M1 : MoveT co (pnt lw 0) AStartPosition q1 = Ok (shifted lw 0 q1)) by (apply MoveT_start; auto).
  assert (M2 : MoveT co (pnt (lw + INR n * W) 0) AStartPosition (right rw) = Ok (shifted (lw + INR n * W) 0 (right rw))) by (apply MoveT_start; [exact HB|apply (TT _ _ B61 IR)|exact SR]).
  set (b := 2 ^ 61 + 2 ^ 61 + 2 ^ 61). assert (Hb : b <= 2 ^ 63) by (unfold b; lra). assert (HLn : left lw <> []) by (destruct SL as (? & ? & -> & _); discriminate). assert (HRn : right rw <> []) by (destruct SR as (? & ? & -> & _); discriminate).
  assert (IA : Forall (Forall (inside b)) [left lw; shifted lw 0 q1; shifted (lw + INR n * W) 0 (right rw)]).
  { repeat apply Forall_cons; [| | |apply Forall_nil].
    - eapply Forall_impl; [|exact IL]. intros g. apply inside_mono. unfold b. lra.
    - apply shifted_inside; [lra| | |exact I1]; [exact Bl|rewrite Rabs_R0; lra].
    - eapply Forall_impl; [|apply (shifted_inside (2 ^ 61) (2 ^ 61)); [lra| | |exact IR]].
      + intros g. apply inside_mono. unfold b. lra.
      + exact Br.
      + rewrite Rabs_R0. lra. }
  destruct (JoinPaths_spec (left lw) [shifted lw 0 q1; shifted (lw + INR n * W) 0 (right rw)]) as (q & E & D & T & _ & (u & Eu)).
  { repeat apply Forall_cons; [exact HLn|apply shifted_nonempty; exact N1|apply shifted_nonempty; exact HRn|apply Forall_nil]. }
  { eapply Forall_impl; [|exact IA]. intros p. apply TT. exact Hb. }
  destruct (placeEdge_spec co AOrigin q (pnt 0 0) x1 y1 x2 y2 (Forall_tame_finite _ T) (finitePt_pnt _ _) (attr_origin co HB q T)) as (A & EP & AL).
  exists (canon (map (affSeg A) q)), (affPt A). split; [|split; [exact AL|]].
  - unfold RepeatEdge. rewrite length_fin. fold L. fin. fold room. rewrite ER. cbn [bind]. rewrite EB. cbn [bind px py pnt]. unfold two. fin. rewrite !fdiv by lra. fin. rewrite !Rminus_0_r. fold lw. fold rw. cbn [val]. rewrite !NewPoint_fin.
    rewrite M1. cbn [bind]. rewrite M2. cbn [bind]. rewrite E. cbn [bind]. rewrite EP. cbn [bind]. unfold HandleTransforms. cbn [applyTransforms bind].
    assert (XQ : ends q (pnt L 0)).
    { rewrite Eu. cbn [last]. apply ends_app. apply (shifted_ends (lw + INR n * W) 0) in XR. replace (pnt L 0) with (pnt (rw + (lw + INR n * W)) (0 + 0)) by (unfold pnt; f_equal; f_equal; lra). exact XR. }
    apply (map_ends A), canon_ends in XQ. destruct XQ as (r & g & Er & Eg). unfold PathCursor. rewrite Er at 1. rewrite Tail_snoc. cbn [bind]. rewrite Eg. do 2 f_equal. destruct AL as (_ & _ & AL). rewrite pnt_X, pnt_Y, Rplus_0_l in AL. exact AL.
  - rewrite canon_drawn, drawn_map_aff, D. rewrite (map_ext _ _ (affSeg_carried A)). f_equal. cbn [map concat]. rewrite app_nil_r, !shifted_drawn, D1'. f_equal. f_equal.
    unfold grid. rewrite flat_map_concat_map, concat_map, map_map, <- flat_map_concat_map. apply flat_map_ext. intros i. cbn [seq flat_map]. rewrite app_nil_r, map_map. apply map_ext. intros g. rewrite <- !displaced_aff, affSeg_comp. f_equal. apply aff_ext; cbn; ring.
Qed.
(** repeat_edge: left part, as many copies as fit between the paddings, right part; the rest is shared between left and right; the whole is carried so that it leads
    from the start to the end *)
Theorem C61_repeat_edge bm fuel (f : option (Z * Z) -> path RNum) left right W pl pr x1 y1 x2 y2 (n : nat) :
  let co := BezierOps RTrig bm fuel in let L := dist x1 y1 x2 y2 in let room := L - (pl + pr) in
  let lw := (room - INR n * W) / 2 + pl in let rw := (room - INR n * W) / 2 + pr in
  0 < W -> 0 <= pl -> 0 <= pr -> L <= 2 ^ 61 -> INR n < 2 ^ 63 ->
  0 < room -> (0 < n)%nat -> INR n * W <= room < (INR n + 1) * W ->
  (forall c, level W (f c)) -> (forall c x, reachX (f c) x -> x <= W) ->
  level lw (left lw) -> level rw (right rw) ->
  exists q m, RepeatEdge co RTrig RFloor [] (fun w => Ok (left (val w))) (fun w => Ok (right (val w))) (fun c => Ok (f c)) (pnt x1 y1) (pnt x2 y2) AOrigin (Fin pl) (Fin pr) = Ok (q, pnt x2 y2) /\
    along (pnt 0 0) L x1 y1 x2 y2 m /\
    drawn q = map (carried m) (drawn (left lw) ++ flat_map (fun i => map (displaced (lw + INR i * W) 0) (drawn (f (Some (Z.of_nat i, 0%Z))))) (seq 0 n)
                               ++ map (displaced (lw + INR n * W) 0) (drawn (right rw))) /\
    lw + INR n * W + rw = L /\ lw - pl = rw - pr /\ 0 <= lw - pl < W / 2.
Proof.
  intros co L room lw rw W0 Pl Pr BL Bn R0 N0 Hn Hf Hr HL HR. pose proof (pos_INR n) as Pn.
  assert (Lr : INR n * W <= L) by (unfold room in Hn; lra).
  assert (Ll : 0 <= lw - pl < W / 2) by (unfold lw; lra). assert (Sum : lw + INR n * W + rw = L) by (unfold lw, rw, room; lra). assert (Rl : 0 <= rw) by (unfold rw; lra).
  assert (0 <= INR n * W) by nra.
  destruct (repeat_edge bm fuel f left right W pl pr x1 y1 x2 y2 n) as (q & m & E & AL & D); auto.
  - fold L. fold room. fold lw. rewrite Rabs_pos_eq; lra.
  - fold L. fold room. fold lw. rewrite Rabs_pos_eq; lra.
  - lra.
  - split; intros; [exact Hn|]. unfold room, L in R0. lra.
  - exists q, m. split; [exact E|]. split; [exact AL|]. split; [exact D|]. split; [exact Sum|]. split; [unfold lw, rw; lra|exact Ll].
Qed.

(** the straight piece from (0,0) to (w,0) *)
Definition bar (w : R) : path RNum := [Move (pnt 0 0) (pnt 0 0); Line (pnt 0 0) (pnt w 0)].
Lemma bar_level w : Rabs w < 2 ^ 61 -> level w (bar w).
Proof.
  intros H. assert (Z : Rabs 0 < 2 ^ 61) by (rewrite Rabs_R0; lra). split; [|split; [eexists _, _; split; reflexivity|]].
  - repeat first [apply Forall_cons | apply Forall_nil]; cbn [inside]; repeat split; rewrite ?pnt_X, ?pnt_Y; assumption.
  - exists [Move (pnt 0 0) (pnt 0 0)]. eexists. split; reflexivity.
Qed.
(** An edge of length 5, going up from (2,1), copies of the zigzag two wide, paddings of a quarter and a half: two copies, and the left and right parts are 3/8 and 5/8 wide. *)
Example C61_example bm fuel : exists q m, RepeatEdge (BezierOps RTrig bm fuel) RTrig RFloor [] (fun w => Ok (bar (val w))) (fun w => Ok (bar (val w))) (fun _ => Ok zig) (pnt 2 1) (pnt 2 6) AOrigin (Fin (1 / 4)) (Fin (1 / 2)) = Ok (q, pnt 2 6) /\
  along (pnt 0 0) 5 2 1 2 6 m /\ length (drawn q) = 6%nat.
Proof.
  assert (EL : dist 2 1 2 6 = 5) by (unfold dist; replace ((2 - 2) ^ 2 + (6 - 1) ^ 2) with (5 * 5) by ring; apply sqrt_square; lra).
  destruct (C61_repeat_edge bm fuel (fun _ => zig) bar bar 2 (1 / 4) (1 / 2) 2 1 2 6 2) as (q & m & E & A & D & _); rewrite ?EL; cbn [INR]; try lra; try lia.
  - intros _. split; [nears|]. split; [eexists _, _; split; reflexivity|]. exists [Move (pnt 0 0) (pnt 0 0); Line (pnt 0 0) (pnt 1 1)]. eexists. split; reflexivity.
  - intros _ x. apply zig_W.
  - apply bar_level. apply Rabs_def1; lra.
  - apply bar_level. apply Rabs_def1; lra.
  - exists q, m. split; [exact E|]. rewrite EL in A. split; [exact A|]. rewrite D. reflexivity.
Qed.
(** a bar of the edge's length and a zigzag after it, laid from (1,1) to (4,5) *)
Example C61_basic_example bm fuel : exists q c m, BasicEdge (BezierOps RTrig bm fuel) RTrig [] (fun w => [fun _ => Ok (bar (val w)); fun _ => Ok zig]) (pnt 1 1) (pnt 4 5) AOrigin (pnt 0 0) = Ok (q, c) /\
  along (pnt 0 0) 5 1 1 4 5 m /\ drawn q = map (carried m) (drawn (bar 5) ++ drawn zig) /\ c = m (pnt 2 0).
Proof.
  assert (EL : dist 1 1 4 5 = 5) by (unfold dist; replace ((4 - 1) ^ 2 + (5 - 1) ^ 2) with (5 * 5) by ring; apply sqrt_square; lra).
  assert (T5 : Forall tame (bar 5)) by (apply Forall_inside_tame with (b := 2 ^ 61); [lra|]; apply bar_level, Rabs_def1; lra). assert (TZ : Forall tame zig) by (apply Forall_inside_tame with (b := 2 ^ 61); [lra|]; nears).
  assert (HN : Forall (fun q : path RNum => q <> []) [bar 5; zig]) by (repeat apply Forall_cons; [discriminate|discriminate|apply Forall_nil]).
  assert (HT : Forall (Forall tame) [bar 5; zig]) by (apply Forall_cons; [exact T5|]; apply Forall_cons; [exact TZ|apply Forall_nil]).
  destruct (C61_basic_edge bm fuel (fun w => [fun _ => Ok (bar (val w)); fun _ => Ok zig]) AOrigin [bar 5; zig] (pnt 0 0) 1 1 4 5 (pnt 0 0)) as (q & c & m & E & A & D & _ & C); try assumption.
  - rewrite EL. reflexivity.
  - discriminate.
  - intros q EJ. apply attr_origin; [apply BezierOps_boxOk|]. destruct (JoinPaths_spec (bar 5) [zig] HN HT) as (q' & EJ' & _ & T & _). rewrite EJ in EJ'. injection EJ' as ->. exact T.
  - apply finitePt_pnt.
  - rewrite EL in *. exists q, c, m. split; [exact E|]. split; [exact A|]. split; [rewrite D; cbn [map concat]; rewrite app_nil_r; reflexivity|]. apply C. exists [Move (pnt 0 0) (pnt 0 0); Line (pnt 0 0) (pnt 1 1)]. eexists. split; reflexivity.
Qed.
(** An edge without any room (here: one that ends where it starts) is not reported as too short: one copy is drawn, sticking out on both sides. *)
Theorem C61_no_room_refuted : forall bm fuel, exists q, RepeatEdge (BezierOps RTrig bm fuel) RTrig RFloor [] (fun w => Ok (bar (val w))) (fun w => Ok (bar (val w))) (fun _ => Ok (bar 2)) (pnt 5 5) (pnt 5 5) AOrigin (Fin 0) (Fin 0) = Ok (q, pnt 5 5) /\
  exists g, In g (drawn q) /\ (X (send g) - X (sstart g)) ^ 2 + (Y (send g) - Y (sstart g)) ^ 2 = 2 ^ 2.
Proof.
  intros bm fuel. assert (EL : dist 5 5 5 5 = 0) by (unfold dist; replace ((5 - 5) ^ 2 + (5 - 5) ^ 2) with 0 by ring; apply sqrt_0).
  destruct (repeat_edge bm fuel (fun _ => bar 2) bar bar 2 0 0 5 5 5 5 1) as (q & m & E & (R & _) & D); rewrite ?EL; cbn [INR]; try lra; try lia.
  - apply Rabs_le; lra.
  - apply Rabs_le; lra.
  - split; intros; [lra|reflexivity].
  - intros _. apply bar_level. apply Rabs_def1; lra.
  - intros _ x H. apply (straight_reach (bar 2)) with (lo := 0) (hi := 2) in H; [lra|repeat constructor|ends_nums].
  - apply bar_level. apply Rabs_def1; lra.
  - apply bar_level. apply Rabs_def1; lra.
  - exists q. split; [exact E|]. rewrite EL in D. cbn in D. destruct R as (c & s & u & v & Hcs & Hm). eexists. split; [rewrite D; right; left; reflexivity|]. cbn [carried sstart send]. rewrite !Hm. unfold motion. rewrite !pnt_X, !pnt_Y. 
    match goal with |- ?e = _ => transitivity ((c ^ 2 + s ^ 2) * 4); [ring|rewrite Hcs; ring] end.
Qed.
