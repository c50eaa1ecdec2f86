(** Geometry of the bin packer in exact arithmetic (C20, C21, C23). *)
From Coq Require Import List ZArith Bool Lia Reals Lra Permutation.
From Verif Require Import Num NumLaws RealNum BinPack BinPackProofs.
Import ListNotations.
Local Open Scope R_scope.

Notation rectR := (rect RNum).

(** ** specification *)
(** rectangle with corner (x,y), width w and height h *)
Definition rectIs (r : rectR) (x y w h : R) : Prop := r = @mkRect RNum (Fin x) (Fin y) (Fin w) (Fin h).
(** the point (u,v) is strictly inside *)
Definition inside (r : rectR) (u v : R) : Prop :=
  exists x y w h, rectIs r x y w h /\ x < u < x + w /\ y < v < y + h.
Definition disjoint (a b : rectR) : Prop := forall u v, ~ (inside a u v /\ inside b u v).
(** [a] lies inside [c], borders included *)
Definition within (a c : rectR) : Prop :=
  exists x y w h x' y' w' h', rectIs a x y w h /\ rectIs c x' y' w' h' /\
    x' <= x /\ x + w <= x' + w' /\ y' <= y /\ y + h <= y' + h' /\ 0 <= w /\ 0 <= h.
Definition area (r : rectR) : R := match rw r, rh r with Fin w, Fin h => w * h | _, _ => 0 end.
Fixpoint sumR (l : list R) : R := match l with [] => 0 | x :: r => x + sumR r end.

(** all pairs at different positions *)
Definition pairwise {A} (R : A -> A -> Prop) (l : list A) : Prop :=
  forall i j a b, i <> j -> nth_error l i = Some a -> nth_error l j = Some b -> R a b.

(** ** invariant *)
Section Geom.
Context {O : Type}.
Notation bin := (bin RNum O).

Definition realRect (r : rectR) : Prop := exists x y w h, rectIs r x y w h /\ 0 <= w /\ 0 <= h.
Definition tiles (r l rr : rectR) : Prop :=
  exists x y w h k, rectIs r x y w h /\
    ((rectIs l x y k h /\ rectIs rr (x + k) y (w - k) h /\ 0 <= k <= w /\ 0 <= h) \/
     (rectIs l x y w k /\ rectIs rr x (y + k) w (h - k) /\ 0 <= k <= h /\ 0 <= w)).

Fixpoint good (b : bin) : Prop :=
  match b with
  | Leaf r _ _ => realRect r
  | Node r _ l rr => tiles r (binRect l) (binRect rr) /\ good l /\ good rr
  end.

(** rectangles holding an object *)
Fixpoint occ (b : bin) : list rectR :=
  match b with
  | Leaf r _ (Some _) => [r]
  | Leaf _ _ None => []
  | Node _ _ l r => occ l ++ occ r
  end.

Lemma good_real b : good b -> realRect (binRect b).
Proof.
  destruct b as [r rot o|r rot l rr]; cbn; [auto|]. intros [(x & y & w & h & k & E & T) _].
  exists x, y, w, h. split; [exact E|]. destruct T as [(_ & _ & ? & ?)|(_ & _ & ? & ?)]; lra.
Qed.

Lemma within_trans a b c : within a b -> within b c -> within a c.
Proof.
  intros (x & y & w & h & x' & y' & w' & h' & E1 & E2 & H) (x1 & y1 & w1 & h1 & x1' & y1' & w1' & h1' & E3 & E4 & H').
  unfold rectIs in *. rewrite E2 in E3. injection E3 as -> -> -> ->.
  exists x, y, w, h, x1', y1', w1', h1'. unfold rectIs. repeat split; auto; lra.
Qed.
Lemma within_refl r : realRect r -> within r r.
Proof. intros (x & y & w & h & E & H). exists x, y, w, h, x, y, w, h. repeat split; auto; lra. Qed.
Lemma within_inside a c u v : within a c -> inside a u v -> inside c u v.
Proof.
  intros (x & y & w & h & x' & y' & w' & h' & E1 & E2 & H) (a1 & a2 & a3 & a4 & E & H').
  unfold rectIs in *. rewrite E1 in E. injection E as <- <- <- <-. exists x', y', w', h'. unfold rectIs. repeat split; auto; lra.
Qed.

Lemma tiles_within r l rr : tiles r l rr -> within l r /\ within rr r.
Proof.
  intros (x & y & w & h & k & E & [(El & Er & H)|(El & Er & H)]).
  - split; [exists x, y, k, h, x, y, w, h|exists (x + k), y, (w - k), h, x, y, w, h]; repeat split; auto; lra.
  - split; [exists x, y, w, k, x, y, w, h|exists x, (y + k), w, (h - k), x, y, w, h]; repeat split; auto; lra.
Qed.
Lemma tiles_disjoint r l rr : tiles r l rr -> disjoint l rr.
Proof.
  intros (x & y & w & h & k & E & [(El & Er & H)|(El & Er & H)]) u v [(a1 & a2 & a3 & a4 & F1 & H1) (b1 & b2 & b3 & b4 & F2 & H2)];
    unfold rectIs in *; rewrite El in F1; rewrite Er in F2; injection F1 as <- <- <- <-; injection F2 as <- <- <- <-; lra.
Qed.
Lemma tiles_area r l rr : tiles r l rr -> area r = area l + area rr.
Proof.
  intros (x & y & w & h & k & E & [(El & Er & H)|(El & Er & H)]); unfold rectIs in *; subst; unfold area; cbn; ring.
Qed.
Lemma disjoint_sym a b : disjoint a b -> disjoint b a.
Proof. intros H u v [H1 H2]. apply (H u v). auto. Qed.
Lemma disjoint_within a b a' b' : disjoint a b -> within a' a -> within b' b -> disjoint a' b'.
Proof. intros H Ha Hb u v [H1 H2]. apply (H u v). split; eapply within_inside; eauto. Qed.

Lemma occ_within b : good b -> Forall (fun r => within r (binRect b)) (occ b).
Proof.
  induction b as [r rot [o|]|r rot l IHl rr IHr]; cbn [good occ binRect].
  - intros H. constructor; [apply within_refl; exact H|constructor].
  - constructor.
  - intros (T & Hl & Hr). destruct (tiles_within _ _ _ T) as [Wl Wr]. apply Forall_app. split.
    + eapply Forall_impl; [|apply IHl; exact Hl]. intros a Ha. exact (within_trans _ _ _ Ha Wl).
    + eapply Forall_impl; [|apply IHr; exact Hr]. intros a Ha. exact (within_trans _ _ _ Ha Wr).
Qed.

Lemma FOP_app {A} (R : A -> A -> Prop) l1 l2 : ForallOrdPairs R l1 -> ForallOrdPairs R l2 ->
  (forall a b, In a l1 -> In b l2 -> R a b) -> ForallOrdPairs R (l1 ++ l2).
Proof.
  induction 1 as [|a l Ha Hl IH]; intros H2 H; cbn; [exact H2|]. constructor.
  - apply Forall_app. split; [exact Ha|]. apply Forall_forall. intros b Hb. apply H; [left; reflexivity|exact Hb].
  - apply IH; auto. intros x y Hx Hy. apply H; [right|]; assumption.
Qed.
Lemma FOP_perm {A} (R : A -> A -> Prop) (Hs : forall a b, R a b -> R b a) l l' :
  Permutation l l' -> ForallOrdPairs R l -> ForallOrdPairs R l'.
Proof.
  induction 1 as [|x l l' P IH|x y l|l l' l'' P1 IH1 P2 IH2]; intros H; auto.
  - inversion H; subst. constructor; auto. rewrite <- P. assumption.
  - inversion H as [|? ? H1 H2]; subst. inversion H2 as [|? ? H3 H4]; subst. inversion H1; subst.
    constructor; [constructor; auto|constructor; auto].
Qed.

Lemma occ_disjoint b : good b -> ForallOrdPairs disjoint (occ b).
Proof.
  induction b as [r rot [o|]|r rot l IHl rr IHr]; cbn [good occ].
  - intros _. constructor; constructor.
  - constructor.
  - intros (T & Hl & Hr). apply FOP_app; auto. intros a b Ha Hb.
    pose proof (occ_within l Hl) as Wl. pose proof (occ_within rr Hr) as Wr. rewrite Forall_forall in Wl, Wr.
    eapply disjoint_within; [apply (tiles_disjoint _ _ _ T)|auto|auto].
Qed.

Lemma sumR_app l1 l2 : sumR (l1 ++ l2) = sumR l1 + sumR l2.
Proof. induction l1; cbn; [lra|]. rewrite IHl1. lra. Qed.
Lemma sumR_perm l l' : Permutation l l' -> sumR l = sumR l'.
Proof. induction 1; cbn; lra. Qed.

Lemma area_account b : good b -> sumR (map area (getEmpties b)) + sumR (map area (occ b)) = area (binRect b).
Proof.
  induction b as [r rot [o|]|r rot l IHl rr IHr]; cbn [good occ getEmpties binRect map sumR].
  - intros _. lra.
  - intros _. lra.
  - intros (T & Hl & Hr). rewrite !map_app, !sumR_app, (tiles_area _ _ _ T), <- (IHl Hl), <- (IHr Hr). lra.
Qed.

Lemma empties_real b : good b -> Forall realRect (getEmpties b).
Proof.
  induction b as [r rot [o|]|r rot l IHl rr IHr]; cbn [good getEmpties]; auto.
  intros (_ & Hl & Hr). apply Forall_app. auto.
Qed.

Lemma fold_area (l : list rectR) : Forall realRect l -> forall a,
  fold_left (fun acc r => add (n:=RNum) acc (mul (n:=RNum) (rw r) (rh r))) l (Fin a) = Fin (a + sumR (map area l)).
Proof.
  induction 1 as [|r l (x & y & w & h & E & _) Hl IH]; intros a; cbn [fold_left map sumR].
  - f_equal. lra.
  - rewrite E. cbn [rw rh]. change (mul (n:=RNum) (Fin w) (Fin h)) with (Fin (w * h)).
    change (add (n:=RNum) (Fin a) (Fin (w * h))) with (Fin (a + w * h)). rewrite IH. f_equal. unfold area at 2. cbn [rw rh]. lra.
Qed.

Lemma GetEmptyArea_sum b : good b -> GetEmptyArea b = Fin (sumR (map area (getEmpties b))).
Proof.
  intros H. unfold GetEmptyArea. change (@zero RNum) with (Fin 0). rewrite (fold_area _ (empties_real b H)). f_equal. lra.
Qed.

(** ** one insertion *)
Lemma leafInsert_geom f : forall r rot obj o w h ans b', realRect r -> 0 < w -> 0 < h ->
  leafInsert f r rot obj o (Fin w : T RNum) (Fin h : T RNum) = Ok (ans, b') ->
  good b' /\ binRect b' = r /\
  match ans with
  | None => True
  | Some (r', _) => Permutation (occ b') (r' :: occ (Leaf r rot obj))
  end.
Proof.
  induction f as [|f IH]; intros r rot obj o w h ans b' Hr Hw Hh; [discriminate|].
  cbn [leafInsert].
  destruct (eqb (n:=RNum) (Fin w) zero || eqb (n:=RNum) (Fin h) zero || isnan (n:=RNum) (Fin w) || isnan (n:=RNum) (Fin h)).
  { intros E; injection E as <- <-. cbn. auto. }
  set (rt := tooSmall r (Fin w : T RNum) (Fin h : T RNum)).
  assert (exists w' h', (if rt then Fin h : T RNum else Fin w) = Fin w' /\ (if rt then Fin w : T RNum else Fin h) = Fin h' /\ 0 < w' /\ 0 < h')
    as (w' & h' & Ew & Eh & Hw' & Hh') by (destruct rt; eexists _, _; eauto).
  cbv zeta. rewrite Ew, Eh.
  destruct (rt && tooSmall r (Fin w' : T RNum) (Fin h' : T RNum)) eqn:Et.
  { intros E; injection E as <- <-. cbn. auto. }
  assert (Hs : tooSmall r (Fin w' : T RNum) (Fin h' : T RNum) = false).
  { destruct rt eqn:E; [exact Et|]. rewrite <- Ew, <- Eh. exact E. }
  destruct obj as [q|].
  { intros E; injection E as <- <-. cbn. auto. }
  destruct Hr as (x & y & W & H & Er & HW & HH). unfold rectIs in Er. subst r. cbn [rx ry rw rh] in *.
  unfold tooSmall in Hs. cbn [rw rh] in Hs. apply orb_false_iff in Hs as [Hs1 Hs2].
  change (Rltb H h' = false) in Hs1. change (Rltb W w' = false) in Hs2. apply Rltb_false in Hs1, Hs2.
  destruct (eqb (n:=RNum) (Fin H) (Fin h') && eqb (n:=RNum) (Fin W) (Fin w')).
  { intros E; injection E as <- <-. cbn. repeat split; auto. exists x, y, W, H. split; [reflexivity|lra]. }
  destruct (gtb (N:=RNum) _ _).
  - destruct (leafInsert f _ rt None o _ _) as [[a l]| | |] eqn:El; cbn [bind]; try discriminate.
    intros E; injection E as <- <-. apply IH in El; auto; [|exists x, y, w', H; repeat split; lra].
    destruct El as (Gl & Bl & P). cbn [good occ binRect]. rewrite Bl. split; [split; [|split]|split].
    + exists x, y, W, H, w'. split; [reflexivity|]. left. repeat split; lra.
    + exact Gl.
    + exists (x + w'), y, (W - w'), H. split; [reflexivity|lra].
    + reflexivity.
    + destruct a as [[r' ?]|]; auto. rewrite app_nil_r. exact P.
  - destruct (leafInsert f _ rt None o _ _) as [[a l]| | |] eqn:El; cbn [bind]; try discriminate.
    intros E; injection E as <- <-. apply IH in El; auto; [|exists x, y, W, h'; repeat split; lra].
    destruct El as (Gl & Bl & P). cbn [good occ binRect]. rewrite Bl. split; [split; [|split]|split].
    + exists x, y, W, H, h'. split; [reflexivity|]. right. repeat split; lra.
    + exact Gl.
    + exists x, (y + h'), W, (H - h'). split; [reflexivity|lra].
    + reflexivity.
    + destruct a as [[r' ?]|]; auto. rewrite app_nil_r. exact P.
Qed.

Lemma good_fin b : good b -> binFin RNum_pack b.
Proof.
  induction b as [r rot o|r rot l IHl rr IHr]; cbn [good binFin].
  - intros (x & y & w & h & E & _). unfold rectIs in E. subst r. split; cbn; eauto.
  - intros (_ & Hl & Hr). auto.
Qed.

Lemma pos_Fin w : 0 < w -> pos RNum_pack (Fin w : T RNum).
Proof. intros H. split; [exists w; reflexivity|]. apply Rltb_true. exact H. Qed.

Lemma Insert_geom f o w h : 0 < w -> 0 < h -> forall b r' rot' b', good b ->
  Insert (S (S (S f))) b o (Fin w : T RNum) (Fin h : T RNum) = Ok (Some (r', rot'), b') ->
  good b' /\ binRect b' = binRect b /\ Permutation (occ b') (r' :: occ b).
Proof.
  intros Hw Hh. induction b as [r rot obj|r rot l IHl rr IHr]; intros r' rot' b' Hg; cbn [Insert].
  - intros E. apply (leafInsert_geom _ r rot obj o w h _ b' Hg Hw Hh E).
  - cbn [good] in Hg. destruct Hg as (Ti & Gl & Gr).
    destruct (Insert_spec RNum_pack o (Fin w : T RNum) (Fin h) f (pos_Fin w Hw) (pos_Fin h Hh) l (good_fin l Gl)) as [(r1 & rot1 & l' & E & _)|[E _]].
    + rewrite E. cbn [bind]. intros Q; injection Q as <- <- <-. destruct (IHl _ _ _ Gl E) as (Gl' & Bl & P).
      cbn [good occ binRect]. rewrite Bl. split; [auto|]. split; [reflexivity|].
      change (r1 :: occ l ++ occ rr) with ((r1 :: occ l) ++ occ rr). apply Permutation_app_tail. exact P.
    + rewrite E. cbn [bind]. destruct (Insert _ rr o _ _) as [[a r2]| | |] eqn:Er; cbn [bind]; try discriminate.
      intros Q; injection Q as -> <-. destruct (IHr _ _ _ Gr eq_refl) as (Gr' & Br & P).
      cbn [good occ binRect]. rewrite Br. split; [auto|]. split; [reflexivity|].
      rewrite P. symmetry. apply Permutation_middle.
Qed.

(** ** a history of insertions *)
Definition sizeReq (q : O * T RNum * T RNum) (w h : R) : Prop := exists o, q = (o, Fin w, Fin h).
Definition posReq (q : O * T RNum * T RNum) : Prop := exists w h, sizeReq q w h /\ 0 < w /\ 0 < h.

Fixpoint placed (l : list (placement (N:=RNum))) : list rectR :=
  match l with [] => [] | Some (r, _) :: rest => r :: placed rest | None :: rest => placed rest end.

(** the rectangle has the requested size, possibly with width and height exchanged *)
Definition asRequested (q : O * T RNum * T RNum) (r : rectR) : Prop :=
  exists x y w h, sizeReq q w h /\ (rectIs r x y w h \/ rectIs r x y h w).

Lemma sized_Fin (r : rectR) w h : realRect r -> sized r (Fin w : T RNum) (Fin h : T RNum) -> exists x y, rectIs r x y w h.
Proof.
  intros (x & y & w0 & h0 & E & _) [H1 H2]. unfold rectIs in E. subst r. cbn [rw rh] in *.
  apply Reqb_true in H1, H2. subst. exists x, y. reflexivity.
Qed.

Lemma inserts_geom f reqs : Forall posReq reqs -> forall b, good b ->
  exists ans b', inserts (S (S (S f))) b reqs = Ok (ans, b') /\ good b' /\ binRect b' = binRect b /\
    Permutation (occ b') (placed ans ++ occ b) /\
    Forall2 (fun q a => match a with Some (r, _) => asRequested q r | None => True end) reqs ans /\
    pairwise (fun a a' => match a, a' with Some (r, _), Some (r', _) => disjoint r r' | _, _ => True end) ans.
Proof.
  induction 1 as [|q rest (w & h & (o & ->) & Hw & Hh) Hr IH]; intros b Gb.
  - exists [], b. repeat split; auto. intros i j a c _ Hi. destruct i; discriminate.
  - cbn [inserts].
    destruct (Insert_spec RNum_pack o (Fin w : T RNum) (Fin h) f (pos_Fin w Hw) (pos_Fin h Hh) b (good_fin b Gb))
      as [(r1 & rot1 & b1 & E & _ & Sz & _)|[E _]]; rewrite E; cbn [bind].
    + destruct (Insert_geom f o w h Hw Hh b r1 rot1 b1 Gb E) as (G1 & B1 & P1).
      destruct (IH b1 G1) as (ans & b2 & E2 & G2 & B2 & P2 & S2 & D2). rewrite E2. cbn [bind].
      exists (Some (r1, rot1) :: ans), b2. split; [reflexivity|]. split; [exact G2|]. split; [congruence|].
      assert (PP : Permutation (occ b2) (r1 :: placed ans ++ occ b)).
      { rewrite P2, P1. symmetry. apply Permutation_middle. }
      split; [exact PP|].
      assert (R1 : realRect r1).
      { pose proof (occ_within b1 G1) as W. rewrite P1 in W. inversion W as [|? ? (x & y & w1 & h1 & ? & ? & ? & ? & E1 & _ & _ & _ & _ & _ & A1 & A2) _]; subst.
        exists x, y, w1, h1. auto. }
      split.
      * constructor; [|exact S2]. destruct Sz as [Sz|Sz]; apply (sized_Fin _ _ _ R1) in Sz as (x & y & Sz);
          exists x, y, w, h; (split; [exists o; reflexivity|auto]).
      * pose proof (FOP_perm disjoint disjoint_sym _ _ PP (occ_disjoint b2 G2)) as FP. inversion FP as [|? ? FH _]; subst.
        apply Forall_app in FH as [FH _].
        assert (Hd : forall j a, nth_error ans j = Some (Some a) -> disjoint r1 (fst a)).
        { intros j [r' rot'] Hj. rewrite Forall_forall in FH. apply FH. cbn.
          clear - Hj. revert j Hj. induction ans as [|[[r2 rot2]|] l IHl]; intros [|j] Hj; cbn in *; try discriminate.
          - injection Hj as -> ->. left. reflexivity.
          - right. eapply IHl; eauto.
          - eapply IHl; eauto. }
        intros [|i] [|j] a c Hij Hi Hj; cbn in Hi, Hj; try congruence.
        -- injection Hi as <-. destruct c as [[r' rot']|]; auto. apply (Hd j (r', rot') Hj).
        -- injection Hj as <-. destruct a as [[r' rot']|]; auto. apply disjoint_sym. apply (Hd i (r', rot') Hi).
        -- apply (D2 i j); auto.
    + destruct (IH b Gb) as (ans & b2 & E2 & G2 & B2 & P2 & S2 & D2). rewrite E2. cbn [bind].
      exists (None :: ans), b2. repeat split; auto.
      intros [|i] [|j] a c Hij Hi Hj; cbn in Hi, Hj; try congruence.
      * injection Hi as <-. exact I.
      * injection Hj as <-. destruct a as [[? ?]|]; exact I.
      * apply (D2 i j); auto.
Qed.

Lemma good_container x y w h : 0 <= w -> 0 <= h -> good (NewContainer (Fin x : T RNum) (Fin y : T RNum) (Fin w : T RNum) (Fin h : T RNum) : bin).
Proof. intros Hw Hh. exists x, y, w, h. repeat split; auto. Qed.

Lemma container_history f x y w h reqs : 0 <= w -> 0 <= h -> Forall posReq reqs ->
  let c := NewContainer (Fin x : T RNum) (Fin y : T RNum) (Fin w : T RNum) (Fin h : T RNum) : bin in
  exists ans b', inserts (S (S (S f))) c reqs = Ok (ans, b') /\ good b' /\
    Forall2 (fun q a => match a with Some (r, _) => asRequested q r /\ within r (binRect c) | None => True end) reqs ans /\
    pairwise (fun a a' => match a, a' with Some (r, _), Some (r', _) => disjoint r r' | _, _ => True end) ans /\
    GetEmptyArea b' = Fin (w * h - sumR (map area (placed ans))).
Proof.
  intros Hw Hh Hr c. destruct (inserts_geom f reqs Hr c (good_container x y w h Hw Hh)) as (ans & b' & E & G & B & P & S & D).
  exists ans, b'. split; [exact E|]. split; [exact G|].
  assert (Pw : Permutation (occ b') (placed ans)) by (rewrite app_nil_r in P; exact P).
  split; [|split; [exact D|]].
  - pose proof (occ_within b' G) as W. rewrite B, Pw in W. clear - S W.
    induction S as [|q a l l' Hq S IH]; constructor.
    + destruct a as [[r rot]|]; auto. split; auto. cbn in W. inversion W; assumption.
    + apply IH. destruct a as [[r rot]|]; cbn in W; [inversion W; assumption|assumption].
  - rewrite (GetEmptyArea_sum b' G). f_equal. pose proof (area_account b' G) as A. rewrite B in A.
    rewrite (sumR_perm _ _ (Permutation_map area Pw)) in A. change (area (binRect c)) with (w * h) in A. lra.
Qed.
End Geom.
