(** What [KnifeCut] makes of a curve and a line, in exact arithmetic: the roots of a polynomial move with its parameter, in the same order,
    so that the place of the first cut is the first place that is found for both halves. *)
From Coq Require Import List ZArith Bool Reals Lra Lia.
From Verif Require Import Num RealNum RealTrig PathModel SegOps Bezier PathSpec GeomSpec BezierProofs RotateProofs RootsProofs PrecisionProofs Prop_C33 Prop_C42 Prop_C56 ReduceProofs.
Import ListNotations.
Local Open Scope R_scope.

Definition cbrt (x : R) : R := match Crt RBMath (Fin x : T RNum) with Fin r => r | _ => 0 end.
Lemma Crt_cbrt x : Crt RBMath (Fin x : T RNum) = Fin (cbrt x).
Proof. unfold cbrt. destruct (Crt_spec x) as (r & E & _). rewrite E. reflexivity. Qed.
Lemma cbrt_cube x : cbrt x * cbrt x * cbrt x = x.
Proof. unfold cbrt. destruct (Crt_spec x) as (r & E & H). rewrite E. exact H. Qed.
Lemma cbrt_scale x k : k <> 0 -> cbrt (x / (k * k * k)) = cbrt x / k.
Proof. intros K. apply cube_inj. rewrite cbrt_cube. rewrite <- (cbrt_cube x) at 1. field. exact K. Qed.

(** the roots in the order in which they are found *)
Definition cubicReal (a b c : R) : list R :=
  let p := (3 * b - a * a) / 3 in let q := (2 * a * a * a - 9 * a * b + 27 * c) / 27 in
  let D := q / 2 * (q / 2) + p / 3 * (p / 3) * (p / 3) in
  if Rltb D 0 then
    let m := - p / 3 in let r := sqrt (m * m * m) in let phi := acos (- q / (2 * r)) in let s := cbrt r in
    [2 * s * cos (phi / 3) - a / 3; 2 * s * cos ((phi + 2 * PI) / 3) - a / 3; 2 * s * cos ((phi + 2 * (2 * PI)) / 3) - a / 3]
  else if Reqb D 0 then let u := - cbrt (q / 2) in [2 * u - a / 3; - u - a / 3]
  else let sd := sqrt D in [cbrt (- (q / 2) + sd) - cbrt (q / 2 + sd) - a / 3].
Definition polyReal (d a b c : R) : list R :=
  if Reqb d 0 then
    if Reqb a 0 then if Reqb b 0 then [] else [- c / b]
    else let Q := b * b - 4 * a * c in if Rltb Q 0 then [] else [(sqrt Q - b) / (2 * a); (- b - sqrt Q) / (2 * a)]
  else cubicReal (a / d) (b / d) (c / d).

Lemma cubicRoots_real (a b c : R) : cubicRoots (N := RNum) RTrig RBMath (Fin a) (Fin b) (Fin c) = keep01 (N := RNum) (map Fin (cubicReal a b c)).
Proof.
  unfold cubicRoots, cubicReal, two, three. fin. rewrite !fdiv by lra. fin.
  set (p := (3 * b - a * a) / 3). set (q := (2 * a * a * a - 9 * a * b + 27 * c) / 27).
  rewrite !fdiv by lra. fin. set (D := q / 2 * (q / 2) + p / 3 * (p / 3) * (p / 3)).
  destruct (Rltb_spec D 0) as [HD|HD].
  - destruct (three_roots p q HD) as (M0 & R0 & T & H). rewrite fsqrt by exact M0. fin. rewrite fdiv by lra.
    set (r := sqrt (- p / 3 * (- p / 3) * (- p / 3))) in *. unfold gtb. fin. destruct (Rltb_spec (- q / (2 * r)) (- (1))); [lra|]. destruct (Rltb_spec 1 (- q / (2 * r))); [lra|].
    rewrite Crt_cbrt. cbn [RBMath nacos er_acos]. destruct (Rleb_spec (-1) (- q / (2 * r))); [|lra]. destruct (Rleb_spec (- q / (2 * r)) 1); [|lra]. cbn [andb].
    rewrite fpi. fin. rewrite !fdiv by lra. rewrite !fcos. fin. reflexivity.
  - destruct (Reqb_spec D 0) as [E0|N0].
    + rewrite Crt_cbrt. fin. reflexivity.
    + assert (HD' : 0 < D) by lra. rewrite fsqrt by lra. fin. rewrite !Crt_cbrt. fin. reflexivity.
Qed.
Lemma polyRoots_real (d a b c : R) : settled d -> (d = 0 -> settled a) -> (d = 0 -> a = 0 -> settled b) ->
  polyRoots (N := RNum) RTrig RBMath (Fin d) (Fin a) (Fin b) (Fin c) = keep01 (N := RNum) (map Fin (polyReal d a b c)).
Proof.
  intros Sd Sa Sb. unfold polyRoots, polyReal. pose proof (Approx_zero d Sd) as Ad. destruct (Approx (Fin d : T RNum) zero).
  - assert (D0 : d = 0) by (apply Ad; reflexivity). destruct (Reqb_spec d 0); [|contradiction]. pose proof (Approx_zero a (Sa D0)) as Aa. destruct (Approx (Fin a : T RNum) zero).
    + assert (A0 : a = 0) by (apply Aa; reflexivity). destruct (Reqb_spec a 0); [|contradiction]. pose proof (Approx_zero b (Sb D0 A0)) as Ab. destruct (Approx (Fin b : T RNum) zero).
      * assert (b = 0) by (apply Ab; reflexivity). destruct (Reqb_spec b 0); [reflexivity|contradiction].
      * assert (B0 : b <> 0) by (intros X; apply Ab in X; discriminate). destruct (Reqb_spec b 0); [contradiction|]. fin. rewrite fdiv by auto. reflexivity.
    + assert (A0 : a <> 0) by (intros X; apply Aa in X; discriminate). destruct (Reqb_spec a 0); [contradiction|]. unfold two. fin.
      set (Q := b * b - 4 * a * c). destruct (Rltb_spec Q 0) as [HQ|HQ].
      * assert (EN : @nsqrt RNum (Fin Q) = NaN) by (cbn; destruct (Rltb_spec Q 0); [reflexivity|lra]). rewrite EN. cbn. destruct (Reqb (2 * a) 0); reflexivity.
      * rewrite fsqrt by lra. fin. rewrite !fdiv by lra. reflexivity.
  - assert (D0 : d <> 0) by (intros X; apply Ad in X; discriminate). destruct (Reqb_spec d 0); [contradiction|]. rewrite !fdiv by auto. apply cubicRoots_real.
Qed.

(** a polynomial in another parameter, u + k t *)
Lemma cubicReal_moved a b c u k : 0 < k ->
  cubicReal ((3 * u + a) / k) ((3 * u * u + 2 * a * u + b) / (k * k)) (poly 1 a b c u / (k * k * k)) = map (fun r => (r - u) / k) (cubicReal a b c).
Proof.
  intros K. unfold cubicReal.
  set (p := (3 * b - a * a) / 3). set (q := (2 * a * a * a - 9 * a * b + 27 * c) / 27).
  assert (Ep : (3 * ((3 * u * u + 2 * a * u + b) / (k * k)) - (3 * u + a) / k * ((3 * u + a) / k)) / 3 = p / (k * k)) by (unfold p; field; lra).
  assert (Eq : (2 * ((3 * u + a) / k) * ((3 * u + a) / k) * ((3 * u + a) / k) - 9 * ((3 * u + a) / k) * ((3 * u * u + 2 * a * u + b) / (k * k)) + 27 * (poly 1 a b c u / (k * k * k))) / 27 = q / (k * k * k)).
  { unfold q, poly. field. lra. }
  rewrite Ep, Eq. clear Ep Eq. set (D := q / 2 * (q / 2) + p / 3 * (p / 3) * (p / 3)).
  assert (ED : q / (k * k * k) / 2 * (q / (k * k * k) / 2) + p / (k * k) / 3 * (p / (k * k) / 3) * (p / (k * k) / 3) = D / (k * k * k * (k * k * k))) by (unfold D; field; lra).
  rewrite ED. assert (K3 : 0 < k * k * k) by (repeat apply Rmult_lt_0_compat; lra). assert (K6 : 0 < k * k * k * (k * k * k)) by (apply Rmult_lt_0_compat; exact K3).
  assert (DD : D = D / (k * k * k * (k * k * k)) * (k * k * k * (k * k * k))) by (field; lra).
  assert (SQ : forall x, 0 <= x -> sqrt (x / (k * k * k * (k * k * k))) = sqrt x / (k * k * k)).
  { intros x X. rewrite sqrt_div by lra. rewrite sqrt_square by lra. reflexivity. }
  destruct (Rltb_spec D 0) as [HD|HD].
  - destruct (Rltb_spec (D / (k * k * k * (k * k * k))) 0) as [_|B]; [|exfalso; assert (0 <= D / (k * k * k * (k * k * k)) * (k * k * k * (k * k * k))) by (apply Rmult_le_pos; lra); lra].
    destruct (three_roots p q HD) as (M0 & R0 & T & _).
    replace (- (p / (k * k)) / 3 * (- (p / (k * k)) / 3) * (- (p / (k * k)) / 3)) with (- p / 3 * (- p / 3) * (- p / 3) / (k * k * k * (k * k * k))) by (field; lra).
    rewrite SQ by exact M0. set (r := sqrt (- p / 3 * (- p / 3) * (- p / 3))) in *.
    replace (- (q / (k * k * k)) / (2 * (r / (k * k * k)))) with (- q / (2 * r)) by (field; repeat split; (exact R0 || lra)).
    rewrite cbrt_scale by lra. cbn [map]. repeat (f_equal; [field; lra|]). f_equal. field. lra.
  - destruct (Rltb_spec (D / (k * k * k * (k * k * k))) 0) as [B|_]; [exfalso; assert (0 < - (D / (k * k * k * (k * k * k))) * (k * k * k * (k * k * k))) by (apply Rmult_lt_0_compat; lra); lra|].
    destruct (Reqb_spec D 0) as [E0|N0].
    + destruct (Reqb_spec (D / (k * k * k * (k * k * k))) 0) as [_|B]; [|exfalso; apply B; rewrite E0; unfold Rdiv; ring].
      replace (q / (k * k * k) / 2) with (q / 2 / (k * k * k)) by (field; lra). rewrite cbrt_scale by lra. cbn [map]. f_equal; [field; lra|]. f_equal. field. lra.
    + destruct (Reqb_spec (D / (k * k * k * (k * k * k))) 0) as [B|_]; [exfalso; rewrite B in DD; lra|].
      rewrite SQ by lra. replace (- (q / (k * k * k) / 2) + sqrt D / (k * k * k)) with ((- (q / 2) + sqrt D) / (k * k * k)) by (field; lra).
      replace (q / (k * k * k) / 2 + sqrt D / (k * k * k)) with ((q / 2 + sqrt D) / (k * k * k)) by (field; lra). rewrite !cbrt_scale by lra. cbn [map]. f_equal. field. lra.
Qed.
Lemma polyReal_moved d a b c u k : 0 < k ->
  polyReal (d * (k * k * k)) ((3 * d * u + a) * (k * k)) ((3 * d * u * u + 2 * a * u + b) * k) (poly d a b c u) = map (fun r => (r - u) / k) (polyReal d a b c).
Proof.
  intros K. unfold polyReal. assert (K2 : 0 < k * k) by (apply Rmult_lt_0_compat; lra). assert (K3 : 0 < k * k * k) by (apply Rmult_lt_0_compat; lra).
  destruct (Reqb_spec d 0) as [->|D].
  - destruct (Reqb_spec (0 * (k * k * k)) 0) as [_|B]; [|lra]. replace ((3 * 0 * u + a) * (k * k)) with (a * (k * k)) by ring.
    destruct (Reqb_spec a 0) as [->|A].
    + destruct (Reqb_spec (0 * (k * k)) 0) as [_|X]; [|lra]. replace ((3 * 0 * u * u + 2 * 0 * u + b) * k) with (b * k) by ring.
      destruct (Reqb_spec b 0) as [->|B]; [destruct (Reqb_spec (0 * k) 0); [reflexivity|lra]|].
      destruct (Reqb_spec (b * k) 0) as [X|_]; [apply Rmult_integral in X; lra|]. cbn [map]. f_equal. unfold poly. field. lra.
    + destruct (Reqb_spec (a * (k * k)) 0) as [X|_]; [apply Rmult_integral in X; lra|].
      replace (poly 0 a b c u) with (a * (u * u) + b * u + c) by (unfold poly; ring). replace ((3 * 0 * u * u + 2 * a * u + b) * k) with ((2 * a * u + b) * k) by ring.
      set (Q := b * b - 4 * a * c). replace ((2 * a * u + b) * k * ((2 * a * u + b) * k) - 4 * (a * (k * k)) * (a * (u * u) + b * u + c)) with (Q * (k * k)) by (unfold Q; ring).
      destruct (Rltb_spec Q 0) as [L|L].
      * destruct (Rltb_spec (Q * (k * k)) 0) as [_|B]; [reflexivity|]. exfalso. assert (0 < - Q * (k * k)) by (apply Rmult_lt_0_compat; lra). lra.
      * assert (0 <= Q * (k * k)) by (apply Rmult_le_pos; lra). destruct (Rltb_spec (Q * (k * k)) 0) as [B|_]; [lra|]. rewrite sqrt_mult by lra. rewrite sqrt_square by lra.
        cbn [map]. f_equal; [field; lra|]. f_equal. field. lra.
  - destruct (Reqb_spec (d * (k * k * k)) 0) as [X|_]; [apply Rmult_integral in X; lra|]. rewrite <- cubicReal_moved by exact K. f_equal; [field|field|unfold poly; field]; lra.
Qed.

(** polynomials with the same values have the same coefficients *)
Lemma poly_ext d a b c d' a' b' c' : (forall t, poly d a b c t = poly d' a' b' c' t) -> d = d' /\ a = a' /\ b = b' /\ c = c'.
Proof. intros H. pose proof (H 0) as H0. pose proof (H 1) as H1. pose proof (H (-1)) as H2. pose proof (H 2) as H3. unfold poly in *. lra. Qed.

(** the roots for a curve and a line *)
Definition crossings (a b : Pt RNum) (c : crv RNum) : list R :=
  let o0 := off a b (c_s c) in let o1 := off a b (c_cs c) in let o2 := off a b (c_ce c) in let o3 := off a b (c_e c) in
  polyReal (o3 - 3 * o2 + 3 * o1 - o0) (3 * o0 - 6 * o1 + 3 * o2) (3 * o1 - 3 * o0) o0.
(** a section has the same, in the same order *)
Lemma crossings_section a b c d u v : u < v -> section c d u v -> crossings a b d = map (fun r => (r - u) / (v - u)) (crossings a b c).
Proof.
  intros L (F & _ & HX). unfold crossings.
  set (D := off a b (c_e c) - 3 * off a b (c_ce c) + 3 * off a b (c_cs c) - off a b (c_s c)). set (A := 3 * off a b (c_s c) - 6 * off a b (c_cs c) + 3 * off a b (c_ce c)). set (B := 3 * off a b (c_cs c) - 3 * off a b (c_s c)).
  rewrite <- polyReal_moved by lra.
  match goal with |- polyReal ?x ?y ?z ?w = polyReal ?x' ?y' ?z' ?w' => destruct (poly_ext x y z w x' y' z' w') as (-> & -> & -> & ->); [|reflexivity] end.
  intros t. rewrite <- off_curve. destruct (HX t) as [EX EY]. rewrite EX, EY. rewrite off_curve. fold D A B. unfold poly. ring.
Qed.

(** those that are found *)
Definition reach (a b : Pt RNum) (x y : R) : bool :=
  between (Fin x : T RNum) (nmin (px a) (px b)) (nmax (px a) (px b)) && between (Fin y : T RNum) (nmin (py a) (py b)) (py b).
Definition found (a b : Pt RNum) (c : crv RNum) (r : R) : bool := Rleb 0 r && Rleb r 1 && reach a b (curveX c r) (curveY c r).
Lemma filter_map_comm {A B} (f : B -> bool) (g : A -> B) l : filter f (map g l) = map g (filter (fun x => f (g x)) l).
Proof. induction l as [|x r IH]; [reflexivity|]. cbn [map filter]. rewrite IH. destruct (f (g x)); reflexivity. Qed.
Lemma filter_filter {A} (f g : A -> bool) l : filter f (filter g l) = filter (fun x => g x && f x) l.
Proof. induction l as [|x r IH]; [reflexivity|]. cbn [filter]. destruct (g x) eqn:E; cbn [filter andb]; rewrite IH; reflexivity. Qed.
Lemma IntersectsLine_found a b c : finiteCrv c -> finitePt a -> finitePt b -> X a <> X b \/ Y a <> Y b -> told_apart a b c ->
  IntersectsLine RTrig RBMath c a b = map Fin (filter (found a b c) (crossings a b c)).
Proof.
  intros F Fa Fb N (T1 & T2 & T3 & T4). pose proof F as (F1 & F2 & F3 & F4).
  unfold IntersectsLine, Roots. rewrite (Align_off _ a b Fa Fb) by (try exact N; unfold curveArray; repeat constructor; auto). unfold curveArray. cbn [map].
  unfold crossings. set (o0 := off a b (c_s c)) in *. set (o1 := off a b (c_cs c)) in *. set (o2 := off a b (c_ce c)) in *. set (o3 := off a b (c_e c)) in *.
  unfold three. fin. replace (- o0 + 3 * o1 - 3 * o2 + o3) with (o3 - 3 * o2 + 3 * o1 - o0) by ring. replace (- (3) * o0 + 3 * o1) with (3 * o1 - 3 * o0) by ring.
  rewrite polyRoots_real by assumption. unfold keep01. rewrite filter_filter, filter_map_comm. f_equal. apply filter_ext. intros r. unfold found, reach. fin.
  rewrite FindPoint_spec by exact F. cbn [px py pnt]. reflexivity.
Qed.
Lemma filter_first {A} (f g : A -> bool) l s r : (forall x, g x = true -> f x = true) -> filter f l = s :: r -> g s = true -> exists r', filter g l = s :: r'.
Proof.
  intros I. induction l as [|x l IH]; [discriminate|]. cbn [filter]. destruct (f x) eqn:E.
  - intros [= -> _] G. rewrite G. eauto.
  - intros H G. destruct (g x) eqn:E2; [apply I in E2; congruence|]. apply IH; assumption.
Qed.

(** the first place that is found for a section that has it is the same place *)
Lemma first_section a b c d u v s r : finiteCrv c -> finitePt a -> finitePt b -> X a <> X b \/ Y a <> Y b -> told_apart a b c -> told_apart a b d ->
  0 <= u < v -> v <= 1 -> section c d u v -> IntersectsLine RTrig RBMath c a b = Fin s :: r -> u <= s <= v ->
  exists r', IntersectsLine RTrig RBMath d a b = Fin ((s - u) / (v - u)) :: r'.
Proof.
  intros F Fa Fb N T T' L1 L2 HS. rewrite (IntersectsLine_found a b c F Fa Fb N T). rewrite (IntersectsLine_found a b d (proj1 HS) Fa Fb N T').
  destruct (filter (found a b c) (crossings a b c)) as [|s' l] eqn:E; [discriminate|]. cbn [map]. intros E2 I. injection E2 as -> E2.
  rewrite (crossings_section a b c d u v ltac:(lra) HS), filter_map_comm, map_map.
  destruct (filter_first (found a b c) (fun x => found a b d ((x - u) / (v - u))) (crossings a b c) s l) as (r' & ->); [|exact E| |cbn [map]; eauto].
  - intros x G. unfold found in *. apply andb_prop in G. destruct G as [G G3]. apply andb_prop in G. destruct G as [G1 G2]. apply Rleb_true in G1. apply Rleb_true in G2.
    destruct HS as (_ & _ & HX). destruct (HX ((x - u) / (v - u))) as [EX EY]. replace (u + (v - u) * ((x - u) / (v - u))) with x in * by (field; lra). rewrite <- EX, <- EY, G3.
    assert (Ex : x = u + (v - u) * ((x - u) / (v - u))) by (field; lra). assert (0 <= (v - u) * ((x - u) / (v - u)) <= (v - u) * 1) by (split; [apply Rmult_le_pos|apply Rmult_le_compat_l]; lra).
    destruct (Rleb_spec 0 x); [|lra]. destruct (Rleb_spec x 1); [reflexivity|lra].
  - assert (G : In s (filter (found a b c) (crossings a b c))) by (rewrite E; left; reflexivity). apply filter_In in G. destruct G as [_ G]. unfold found in *.
    apply andb_prop in G. destruct G as [_ G3]. destruct HS as (_ & _ & HX). destruct (HX ((s - u) / (v - u))) as [EX EY]. replace (u + (v - u) * ((s - u) / (v - u))) with s in * by (field; lra). rewrite EX, EY, G3.
    assert (Es : (v - u) * ((s - u) / (v - u)) = s - u) by (field; lra).
    destruct (Rleb_spec 0 ((s - u) / (v - u))) as [_|B]; [destruct (Rleb_spec ((s - u) / (v - u)) 1) as [_|B]; [reflexivity|]|]; exfalso.
    + assert ((v - u) * 1 < (v - u) * ((s - u) / (v - u))) by (apply Rmult_lt_compat_l; lra). lra.
    + assert ((v - u) * ((s - u) / (v - u)) < (v - u) * 0) by (apply Rmult_lt_compat_l; lra). lra.
Qed.
