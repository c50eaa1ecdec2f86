(** C71: transforms are made from their type and attributes. *)
From Coq Require Import String Ascii List ZArith Bool Reals Lra Lia.
From Verif Require Import Num FloatNum RealNum RealTrig PathModel DrawModel SegOps TransformsModel OffsetModel Bezier GeomTransforms SvgParse PathSpec PathProofs GeomSpec GeomProofs AffineProofs RotateProofs HandleProofs BezierProofs Witness AttrText Components DrawComp Factories CompProofs Within NumLaws RootsProofs CleanupProofs DedupProofs.
From Verif Require Prop_C14 Prop_C15 Prop_C16 Prop_C17 Prop_C18 Prop_C19 Prop_C40 Prop_C48 Prop_C50 Prop_C69 Prop_C70 Prop_C80 SliceProofs.
Import ListNotations.
Local Open Scope R_scope.
Local Open Scope list_scope.

Section Any.
Context {N : Num}.
Variable co : CurveOps N.
Variable tr : Trig N.
Variables (dop : Z) (fuel : nat) (roomy : bool) (toInt : T N -> nat).
Notation make := (MakeTransform co tr dop fuel roomy toInt).
Notation whole := (ComponentTransforms co tr dop fuel roomy toInt).
Import Prop_C70.

(** the types of transforms and the attributes each needs *)
Definition types : list (string * list (kind * string)) :=
  [("cleanup", []); ("rotate", [(AFloatKind, "degrees")]); ("reverse", []); ("join", []); ("offset", [(AFloatKind, "distance")]); ("move", [(APointKind, "to")]);
   ("trim", []); ("matrix", [(AFloatKind, "a"); (AFloatKind, "b"); (AFloatKind, "c"); (AFloatKind, "d"); (AFloatKind, "e"); (AFloatKind, "f")]);
   ("mirror", []); ("scale", []); ("slice", [(AFloatKind, "y")]); ("rotate_scale", [])]%string.

(** A transform is made exactly if its type is known and the attributes it needs are found; otherwise the answer is an error. *)
Theorem C71_made name a : ((exists t, make name a = Ok t) <-> exists ks, In (name, ks) types /\ Forall (fun k => ~ absent a k) ks) /\
  ((exists t, make name a = Ok t) \/ make name a = Err).
Proof.
  destruct (in_dec string_dec name (map fst types)) as [HI|HI].
  - cbn [map fst types In] in HI. repeat destruct HI as [HI|HI]; try contradiction; subst name.
    all: match goal with |- context [MakeTransform _ _ _ _ _ _ ?n _] => let b := eval cbv [types find fst snd String.eqb Ascii.eqb Bool.eqb] in (find (fun e => String.eqb n (fst e)) types) in
      match b with Some (_, ?ks) => assert (HK : forall ks', In (n, ks') types <-> ks' = ks) by (intros ks'; split; [intros H; cbn [In types] in H; repeat destruct H as [H|H]; try discriminate; try contradiction; congruence|intros ->; cbn [In types]; repeat first [left; reflexivity|right]]);
      assert (HE : forall P : list (kind * string) -> Prop, (exists ks', In (n, ks') types /\ P ks') <-> P ks) by (intros P; split; [intros (ks' & H & HP); apply HK in H; subst; exact HP|intros HP; exists ks; split; [apply HK; reflexivity|exact HP]]) end end; rewrite HE; clear HE HK.
    all: unfold MakeTransform, registered; cbn [find String.eqb Ascii.eqb Bool.eqb fst snd].
    all: unfold createCleanup, createRotate, createReverse, createJoin, createOffset, createMove, createTrim, createMatrix, createMirror, createScale, createSlice, createRotateScale.
    all: rewrite ?Forall_cons_iff, ?Forall_nil_iff; unfold absent; cbn [fst snd].
    all: repeat match goal with |- context [need ?o _] => destruct o; cbn [need] end.
    all: split; [split; intros H|]; try (left; eexists; reflexivity); try (right; reflexivity); try (eexists; reflexivity); try (destruct H; discriminate); repeat split; try discriminate; try (exfalso; tauto).
  - assert (E : make name a = Err).
    { unfold MakeTransform. destruct (find _ _) as [e|] eqn:E; [|reflexivity]. exfalso. apply HI. apply find_some in E. destruct E as [E1 E2]. apply String.eqb_eq in E2. subst name.
      cbn [registered In] in E1. repeat destruct E1 as [E1|E1]; try contradiction; subst e; cbn [fst map types In]; repeat first [left; reflexivity|right]. }
    rewrite E. split; [split|right; reflexivity]; [intros (t & H); discriminate|]. intros (ks & H & _). exfalso. apply HI. apply in_map_iff. exists (name, ks). auto.
Qed.

(** In a component, a transform that cannot be made is an error whatever was drawn; otherwise the transforms are applied in order: a list of transforms does what its first part does, followed
    by what the rest does. *)
Theorem C71_unmade l1 name a l2 p : Forall (fun e => exists t, make (fst e) (snd e) = Ok t) l1 -> ~ (exists t, make name a = Ok t) -> whole (l1 ++ (name, a) :: l2) p = Err.
Proof.
  intros H HN. unfold ComponentTransforms, MakeTransforms. enough (E : each (fun e => make (fst e) (snd e)) (l1 ++ (name, a) :: l2) = Err) by (rewrite E; reflexivity).
  induction H as [|e l1 (t & Ht) _ IH]; cbn [app each].
  - cbn [fst snd]. destruct (proj2 (C71_made name a)) as [E|E]; [contradiction|rewrite E; reflexivity].
  - rewrite Ht. cbn [bind]. rewrite IH. reflexivity.
Qed.
Lemma each_app {A B} (f : A -> res B) l l' r r' : each f l = Ok r -> each f l' = Ok r' -> each f (l ++ l') = Ok (r ++ r').
Proof.
  revert r. induction l as [|x l IH]; intros r H H'; cbn [app each] in *; [injection H as <-; exact H'|]. destruct (f x); try discriminate. cbn [bind] in *. destruct (each f l) as [bs| | |]; try discriminate.
  injection H as <-. rewrite (IH bs) by auto. reflexivity.
Qed.
Theorem C71_in_order l1 l2 p q c : Forall (fun e => exists t, make (fst e) (snd e) = Ok t) l2 -> whole l1 p = Ok (q, c) -> whole (l1 ++ l2) p = whole l2 q.
Proof.
  unfold ComponentTransforms, MakeTransforms. intros H2 H. destruct (each (fun e => make (fst e) (snd e)) l1) as [ts| | |] eqn:E1; try discriminate. cbn [bind] in H.
  assert (exists ts', each (fun e => make (fst e) (snd e)) l2 = Ok ts') as (ts' & E2).
  { clear -H2. induction H2 as [|e l (t & Ht) _ IH]; cbn [each]; [eauto|]. rewrite Ht. destruct IH as (ts & ->). cbn [bind]. eauto. }
  rewrite (each_app _ _ _ _ _ E1 E2), E2. cbn [bind]. unfold HandleTransforms in *.
  assert (EA : applyTransforms ts p = Ok q) by (destruct (applyTransforms ts p); try discriminate; cbn [bind] in H; destruct (PathCursor _); try discriminate; cbn [bind] in H; congruence).
  assert (EC : applyTransforms (ts ++ ts') p = applyTransforms ts' q).
  { clear -EA. revert p EA. induction ts as [|t ts IH]; intros p EA; cbn [app applyTransforms] in *; [congruence|]. destruct (t p); try discriminate. cbn [bind] in *. auto. }
  rewrite EC. reflexivity.
Qed.

(** ** defaults: leaving an attribute out is the same as giving it this value *)
Inductive value := VP (x y : Z) | VF (x : Z) | VT (s : string) | VB (b : bool).
Definition defaults : list (string * (string * value)) :=
  [("cleanup", ("precision", VF 3)); ("rotate", ("axis", VT "$TOP_LEFT")); ("join", ("close_path", VB false)); ("join", ("precision", VF 3));
   ("offset", ("precision", VF 3)); ("offset", ("size_should_be", VT "unknown")); ("move", ("handle", VT "$TOP_LEFT")); ("mirror", ("axis", VT "horizontal"));
   ("scale", ("scale_x", VF 1)); ("scale", ("scale_y", VF 1)); ("scale", ("width", VF 0)); ("scale", ("height", VF 0));
   ("scale", ("start_point", VP 0 0)); ("scale", ("end_point", VP 0 0)); ("rotate_scale", ("start_point", VP 0 0)); ("rotate_scale", ("end_point", VP 0 0))]%string.
Definition put {A} (f : string -> option A) (k : string) (v : A) (k' : string) : option A := if String.eqb k' k then Some v else f k'.
Definition given (a : attrs N) (k : string) (v : value) : attrs N :=
  match v with
  | VP x y => mkAttrs (put (at_point a) k (NewPoint (ofZ x) (ofZ y))) (at_float a) (at_text a) (at_bool a)
  | VF x => mkAttrs (at_point a) (put (at_float a) k (ofZ x)) (at_text a) (at_bool a)
  | VT s => mkAttrs (at_point a) (at_float a) (put (at_text a) k s) (at_bool a)
  | VB b => mkAttrs (at_point a) (at_float a) (at_text a) (put (at_bool a) k b)
  end.
Definition left_out (a : attrs N) (k : string) (v : value) : Prop :=
  match v with VP _ _ => at_point a k = None | VF _ => at_float a k = None | VT _ => at_text a k = None | VB _ => at_bool a k = None end.
Theorem C71_defaults name k v a : toInt (ofZ 3) = 3%nat -> In (name, (k, v)) defaults -> left_out a k v -> make name a = make name (given a k v).
Proof.
  intros H3 HI HA. cbn [In defaults] in HI. repeat destruct HI as [HI|HI]; try contradiction; injection HI as <- <- <-; cbn [left_out] in HA; unfold given, MakeTransform, registered; cbn [find String.eqb Ascii.eqb Bool.eqb fst snd].
  all: unfold createCleanup, createRotate, createJoin, createOffset, createMove, createMirror, createScale, createRotateScale, mustInt, mustHandle, mustText, mustPoint, mustFloat, sizeOf, put;
    cbn [at_point at_float at_text at_bool String.eqb Ascii.eqb Bool.eqb need]; rewrite ?HA, ?H3; try reflexivity.
Qed.
End Any.

(** ** in exact arithmetic: what a transform does to the drawing *)
(** the point a handle names, on a drawing with the box from [tl] to [br]; without a handle it is the top left corner *)
Definition handleAt (p : path RNum) (tl br : Pt RNum) (o : option string) (h : Pt RNum) : Prop :=
  (o = None /\ h = tl) \/
  (exists s f, o = Some s /\ In (s, f) Prop_C69.boxNames /\ h = pnt (X tl + fst f * (X br - X tl)) (Y tl + snd f * (Y br - Y tl))) \/
  (o = Some "$ORIGIN"%string /\ h = pnt 0 0) \/
  (o = Some "$START_POINT"%string /\ exists g r, drawn p = g :: r /\ h = sstart g) \/
  (o = Some "$END_POINT"%string /\ exists i g, drawn p = i ++ [g] /\ h = send g).

(** a number given or left out *)
Definition number (a : attrs RNum) (k : string) (d v : R) : Prop := at_float a k = Some (Fin v) \/ (at_float a k = None /\ v = d).

(** where a transform takes the point (u, v) of a drawing with the box from [tl] to [br] *)
Inductive means (p : path RNum) (tl br : Pt RNum) (a : attrs RNum) : string -> (R -> R -> R) -> (R -> R -> R) -> Prop :=
| means_move x y h : at_point a "to" = Some (pnt x y) -> handleAt p tl br (at_text a "handle") h ->
    means p tl br a "move" (fun u v => u + (x - X h)) (fun u v => v + (y - Y h))
| means_trim : means p tl br a "trim" (fun u v => u - X tl) (fun u v => v - Y tl)
| means_rotate d h : at_float a "degrees" = Some (Fin d) -> handleAt p tl br (at_text a "axis") h ->
    means p tl br a "rotate" (fun u v => X h + (u - X h) * cos (d * PI / 180) - (v - Y h) * sin (d * PI / 180))
                             (fun u v => Y h + (u - X h) * sin (d * PI / 180) + (v - Y h) * cos (d * PI / 180))
| means_matrix ma mb mc md me mf : at_float a "a" = Some (Fin ma) -> at_float a "b" = Some (Fin mb) -> at_float a "c" = Some (Fin mc) ->
    at_float a "d" = Some (Fin md) -> at_float a "e" = Some (Fin me) -> at_float a "f" = Some (Fin mf) ->
    means p tl br a "matrix" (fun u v => ma * u + mc * v + me) (fun u v => mb * u + md * v + mf)
| means_scale kx ky w h : number a "scale_x" 1 kx -> number a "scale_y" 1 ky -> number a "width" 0 w -> number a "height" 0 h -> w <= 0 -> h <= 0 ->
    at_point a "start_point" = None -> at_point a "end_point" = None ->
    means p tl br a "scale" (fun u v => kx * u) (fun u v => ky * v)
| means_size w h kx ky : number a "width" 0 w -> number a "height" 0 h -> 0 < w -> 0 < h -> X tl < X br -> Y tl < Y br ->
    number a "scale_x" 1 kx -> number a "scale_y" 1 ky ->
    means p tl br a "scale" (fun u v => w / (X br - X tl) * u) (fun u v => h / (Y br - Y tl) * v)
| means_width w h kx ky : number a "width" 0 w -> number a "height" 0 h -> 0 < w -> h <= 0 -> X tl < X br ->
    number a "scale_x" 1 kx -> number a "scale_y" 1 ky ->
    means p tl br a "scale" (fun u v => w / (X br - X tl) * u) (fun u v => w / (X br - X tl) * v)
| means_height w h kx ky : number a "width" 0 w -> number a "height" 0 h -> w <= 0 -> 0 < h -> Y tl < Y br ->
    number a "scale_x" 1 kx -> number a "scale_y" 1 ky ->
    means p tl br a "scale" (fun u v => h / (Y br - Y tl) * u) (fun u v => h / (Y br - Y tl) * v)
| means_mirror : at_text a "axis" = None \/ at_text a "axis" = Some "horizontal"%string -> Prop_C18.inBox tl br (Prop_C18.headPos p) -> Prop_C18.inBox tl br (Prop_C18.tailPos p) ->
    means p tl br a "mirror" (fun u v => u) (fun u v => Y tl + Y br - v)
| means_mirror_v : at_text a "axis" = Some "vertical"%string -> Prop_C18.inBox tl br (Prop_C18.headPos p) -> Prop_C18.inBox tl br (Prop_C18.tailPos p) ->
    means p tl br a "mirror" (fun u v => X tl + X br - u) (fun u v => v).
Definition onto (fx fy : R -> R -> R) (q : Pt RNum) : Pt RNum := pnt (fx (X q) (Y q)) (fy (X q) (Y q)).

Lemma TP_ext (f f' : Pt RNum -> Pt RNum) g : (forall z, f z = f' z) -> TransformPoints g f = TransformPoints g f'.
Proof. intros H. destruct g; cbn [TransformPoints]; rewrite !H; reflexivity. Qed.
Lemma drawn_onto A fx fy (l : list (seg RNum)) : (forall u v, affX A u v = fx u v) -> (forall u v, affY A u v = fy u v) ->
  map (affSeg A) l = map (fun g => TransformPoints g (onto fx fy)) l.
Proof. intros HX HY. apply map_ext. intros g. apply TP_ext. intros z. unfold affPt, onto. rewrite HX, HY. reflexivity. Qed.

Lemma mustHandle_named {N : Num} co (a : attrs N) k s p : at_text a k = Some s -> In s enumAttr -> PointPathAttribute co (mustHandle a k) NoSub p = PointPathAttributeText co s p.
Proof.
  intros E HI. unfold mustHandle. rewrite E. cbn [In enumAttr] in HI. repeat destruct HI as [HI|HI]; try contradiction; subst s; reflexivity.
Qed.
Lemma handle_at tr bm fuel p tl br a k h : Forall tame p -> tightBox (inDrawing p) tl br -> handleAt p tl br (at_text a k) h ->
  PointPathAttribute (BezierOps tr bm fuel) (mustHandle a k) NoSub p = Ok h /\ finitePt h.
Proof.
  intros HT HB HH. pose proof (Prop_C16.box_drawn _ _ _ HB) as Hd. pose proof (Forall_tame_finite p HT) as F.
  assert (G : PointPathAttribute (BezierOps tr bm fuel) (mustHandle a k) NoSub p = Ok h).
  { destruct (Prop_C69.C69_box tr bm fuel p HT Hd) as (tl' & br' & HB' & Hbox & _). destruct (tightBox_unique _ _ _ _ _ HB HB') as [<- <-].
    destruct (Prop_C69.C69_ends tr bm fuel p HT Hd) as (_ & _ & (g1 & r1 & D1 & S1) & (i2 & g2 & D2 & S2) & SO).
    destruct HH as [[E ->]|[(s & f & E & HI & ->)|[[E ->]|[[E (g & r & D & ->)]|[E (i & g & D & ->)]]]]].
    - unfold mustHandle. rewrite E. destruct (box_handle _ (BezierOps_boxOk tr bm fuel) ATopLeft 0 0 p HT Hd eq_refl) as (t & b & TB & _ & ->). destruct (tightBox_unique _ _ _ _ _ HB TB) as [<- <-].
      destruct HB as (F1 & _). f_equal. transitivity (pnt (X tl) (Y tl)); [|symmetry; apply (pnt_eta _ F1)]. unfold boxPoint, pnt. f_equal; f_equal; ring.
    - rewrite (mustHandle_named _ a k s p E); [|unfold Prop_C69.boxNames in HI; cbn [In] in HI; repeat destruct HI as [HI|HI]; try contradiction; injection HI as <- <-; cbn [In enumAttr]; auto 20].
      destruct (Hbox s f HI) as (x & y & (-> & ->) & H & _). unfold PointPathAttributeText. rewrite H. reflexivity.
    - rewrite (mustHandle_named _ a k _ p E) by (cbn [In enumAttr]; auto 20). unfold PointPathAttributeText. rewrite SO. reflexivity.
    - rewrite (mustHandle_named _ a k _ p E) by (cbn [In enumAttr]; auto 20). unfold PointPathAttributeText. rewrite S1. rewrite D in D1. injection D1 as <- _. reflexivity.
    - rewrite (mustHandle_named _ a k _ p E) by (cbn [In enumAttr]; auto 20). unfold PointPathAttributeText. rewrite S2. rewrite D in D2. apply app_inj_tail in D2. destruct D2 as [_ <-]. reflexivity. }
  split; [exact G|]. eapply (handle_finite _ (BezierOps_boxOk tr bm fuel)); [exact HT| |exact G]. intros z Ez. exfalso.
  assert (NP : forall z', mustHandle a k <> APoint z'); [|eapply NP; exact Ez].
  intros z'. unfold mustHandle. destruct HH as [[E _]|[(s & f & E & HI & _)|[[E _]|[[E _]|[E _]]]]]; rewrite E; try discriminate.
  unfold Prop_C69.boxNames in HI; cbn [In] in HI; repeat destruct HI as [HI|HI]; try contradiction; injection HI as <- _; discriminate.
Qed.
Lemma mustFloat_number a k d v : number a k d v -> mustFloat a k (Fin d : T RNum) = Fin v.
Proof. unfold mustFloat. intros [H|[H ->]]; rewrite H; reflexivity. Qed.

Lemma ptEquals_refl0 : ptEquals (NewPoint (Fin 0 : T RNum) (Fin 0)) (NewPoint (Fin 0 : T RNum) (Fin 0)) = true.
Proof. rewrite !(NewPoint_fin 0 0). unfold ptEquals, pnt. cbn [px py]. rewrite ?feqb. destruct (Reqb_spec 0 0); [reflexivity|lra]. Qed.
Ltac sizes a := change (@ofZ RNum 1) with (Fin 1 : T RNum); change (@zero RNum) with (Fin 0 : T RNum).
(** A transform takes every drawn segment to its image under the map its type and attributes describe. *)
Theorem C71_effect bm fuel dop jfuel roomy toInt (p : path RNum) tl br name a fx fy :
  Forall (within (2 ^ 62)) p -> tightBox (inDrawing p) tl br -> means p tl br a name fx fy ->
  exists t q, MakeTransform (BezierOps RTrig bm fuel) RTrig dop jfuel roomy toInt name a = Ok t /\ t p = Ok q /\
    drawn q = map (fun g => TransformPoints g (onto fx fy)) (drawn p).
Proof.
  intros HW HB HM. assert (HT : Forall tame p) by (eapply Forall_impl; [|exact HW]; intros g Hg; apply (within_tame (2 ^ 62)) in Hg; [exact Hg|lra]).
  pose proof (Forall_tame_finite p HT) as F. pose proof (Prop_C16.box_drawn _ _ _ HB) as Hd. pose proof HB as (F1 & F2 & _).
  destruct (BoundingBoxTrimWhitespace_tight _ (BezierOps_boxOk RTrig bm fuel) p HT Hd) as (tl1 & br1 & EB & T1). destruct (tightBox_unique _ _ _ _ _ HB T1) as [<- <-]. clear T1.
  set (co := BezierOps RTrig bm fuel) in *.
  destruct HM; unfold MakeTransform, registered; cbn [find String.eqb Ascii.eqb Bool.eqb fst snd].
  - unfold createMove. rewrite H. cbn [need]. destruct (handle_at RTrig bm fuel p tl br a "handle" h HT HB H0) as [EH FH]. eexists. eexists. split; [reflexivity|]. split; [apply (MoveT_shift _ (pnt x y) _ p h (finitePt_pnt _ _) FH EH)|].
    rewrite Shift_drawn by exact F. apply drawn_onto; intros; rewrite ?diag_X, ?diag_Y, ?pnt_X, ?pnt_Y; ring.
  - unfold createTrim. eexists. eexists. split; [reflexivity|]. split; [unfold TrimWhitespace; rewrite EB; cbn [bind]; rewrite (px_fin _ F1), (py_fin _ F1); fin; reflexivity|].
    rewrite Shift_drawn by exact F. apply drawn_onto; intros; rewrite ?diag_X, ?diag_Y; ring.
  - unfold createRotate. rewrite H. cbn [need]. destruct (handle_at RTrig bm fuel p tl br a "axis" h HT HB H0) as [EH FH]. eexists. eexists. split; [reflexivity|]. split; [apply (RotateT_mapPoints _ d _ p h F FH EH)|].
    rewrite canon_drawn, drawn_map_aff. apply drawn_onto; intros; unfold rotAbout, affX, affY; cbn; ring.
  - unfold createMatrix. rewrite H, H0, H1, H2, H3, H4. cbn [need]. eexists. eexists. split; [reflexivity|]. split; [reflexivity|]. apply (Prop_C19.C19_matrix_formula ma mb mc md me mf p F).
  - unfold createScale. eexists. eexists. split; [reflexivity|]. sizes a. rewrite (mustFloat_number a "width" 0 w), (mustFloat_number a "height" 0 h), (mustFloat_number a "scale_x" 1 kx), (mustFloat_number a "scale_y" 1 ky) by assumption. unfold mustPoint. rewrite H5, H6.
    assert (ES : scaleFactors co (@mkScale RNum (Fin kx) (Fin ky) (NewPoint (Fin 0 : T RNum) (Fin 0)) (NewPoint (Fin 0 : T RNum) (Fin 0)) (Fin w) (Fin h)) p = Ok (Fin kx, Fin ky)).
    { unfold scaleFactors. cbn [sc_w sc_h sc_x sc_y sc_start sc_end]. unfold gtb. fin. destruct (Rltb_spec 0 w); [lra|]. destruct (Rltb_spec 0 h); [lra|]. cbn [orb]. rewrite ptEquals_refl0. reflexivity. }
    unfold ScaleT. split; [rewrite ES; cbn [bind]; reflexivity|]. rewrite (mapPoints_drawn _ _ p (scale_aff kx ky) F). apply drawn_onto; intros; rewrite ?diag_X, ?diag_Y; ring.
  - unfold createScale. destruct (Prop_C16.C16_both_sizes RTrig bm fuel kx ky (mustPoint a "start_point" (NewPoint zero zero)) (mustPoint a "end_point" (NewPoint zero zero)) w h p tl br) as (q & tl' & br' & E & _ & _ & _ & D); try assumption.
    eexists. exists q. split; [reflexivity|]. sizes a. rewrite (mustFloat_number a "width" 0 w), (mustFloat_number a "height" 0 h), (mustFloat_number a "scale_x" 1 kx), (mustFloat_number a "scale_y" 1 ky) by assumption. split; [exact E|]. rewrite <- D.
    apply drawn_onto; intros; rewrite ?diag_X, ?diag_Y; ring.
  - unfold createScale. destruct (Prop_C16.C16_width_keeps_ratio RTrig bm fuel kx ky (mustPoint a "start_point" (NewPoint zero zero)) (mustPoint a "end_point" (NewPoint zero zero)) w h p tl br) as (q & tl' & br' & k & E & _ & _ & K1 & K2 & _ & D); try assumption.
    eexists. exists q. split; [reflexivity|]. sizes a. rewrite (mustFloat_number a "width" 0 w), (mustFloat_number a "height" 0 h), (mustFloat_number a "scale_x" 1 kx), (mustFloat_number a "scale_y" 1 ky) by assumption. split; [exact E|]. rewrite <- D.
    assert (K : k = w / (X br - X tl)) by (rewrite <- K1, K2; field; lra). rewrite K. apply drawn_onto; intros; rewrite ?diag_X, ?diag_Y; ring.
  - unfold createScale. destruct (Prop_C16.C16_height_keeps_ratio RTrig bm fuel kx ky (mustPoint a "start_point" (NewPoint zero zero)) (mustPoint a "end_point" (NewPoint zero zero)) w h p tl br) as (q & tl' & br' & k & E & _ & _ & K1 & _ & K2 & D); try assumption.
    eexists. exists q. split; [reflexivity|]. sizes a. rewrite (mustFloat_number a "width" 0 w), (mustFloat_number a "height" 0 h), (mustFloat_number a "scale_x" 1 kx), (mustFloat_number a "scale_y" 1 ky) by assumption. split; [exact E|]. rewrite <- D.
    assert (K : k = h / (Y br - Y tl)) by (rewrite <- K1, K2; field; lra). rewrite K. apply drawn_onto; intros; rewrite ?diag_X, ?diag_Y; ring.
  - destruct (Prop_C18.C18_mirror_keeps_box RTrig bm fuel true p tl br HW HB H0 H1) as (q & E & D & _). unfold createMirror. eexists. exists q. split; [reflexivity|].
    unfold mustText. destruct H as [H|H]; rewrite H; (split; [exact E|exact D]).
  - destruct (Prop_C18.C18_mirror_keeps_box RTrig bm fuel false p tl br HW HB H0 H1) as (q & E & D & _). unfold createMirror. eexists. exists q. split; [reflexivity|].
    unfold mustText. rewrite H. split; [exact E|exact D].
Qed.

(** "reverse" runs every drawn segment the other way, in the opposite order; "rotate_scale" takes the two ends of the drawing to the points given, by a similarity. *)
Theorem C71_reverse {N : Num} (L : EqLaws N) co tr dop fuel roomy toInt (a : attrs N) p : connected p ->
  exists t q, MakeTransform co tr dop fuel roomy toInt "reverse" a = Ok t /\ t p = Ok q /\ drawn q = rev (map flip (drawn p)).
Proof. intros H. eexists. eexists. split; [reflexivity|]. split; [reflexivity|]. apply PathReverse_drawn; assumption. Qed.
Definition place (a : attrs RNum) (k : string) (q : Pt RNum) : Prop := finitePt q /\ (at_point a k = Some q \/ (at_point a k = None /\ q = pnt 0 0)).
Theorem C71_rotate_scale bm fuel dop jfuel roomy toInt (a : attrs RNum) (p : path RNum) s e s' e' :
  Forall tame p -> Prop_C50.firstPoint p s -> Prop_C50.lastPoint p e -> s <> e -> place a "start_point" s' -> place a "end_point" e' ->
  exists t q ma mb u v, MakeTransform (BezierOps RTrig bm fuel) RTrig dop jfuel roomy toInt "rotate_scale" a = Ok t /\ t p = Ok q /\
    drawn q = map (fun g => TransformPoints g (Prop_C50.similar ma mb u v)) (drawn p) /\ Prop_C50.similar ma mb u v s = s' /\ Prop_C50.similar ma mb u v e = e'.
Proof.
  intros HT H1 H2 NE [F1 P1] [F2 P2]. destruct (Prop_C50.C50_ends_placed bm fuel p s e s' e' HT H1 H2 NE F1 F2) as (q & ma & mb & u & v & E & R). eexists. exists q, ma, mb, u, v. split; [reflexivity|]. split; [|exact R].
  unfold mustPoint. change (@zero RNum) with (Fin 0 : T RNum). rewrite (NewPoint_fin 0 0). rewrite <- E. f_equal.
  - destruct P1 as [->|[-> ->]]; reflexivity.
  - destruct P2 as [->|[-> ->]]; reflexivity.
Qed.

(** ** "cleanup", "slice" and the size of an "offset" *)
(** "cleanup" keeps what is drawn but for ends that are not numbers, the starts agreeing with the old ones to the decimals asked for (3 if none are given); of a path whose ends are
    numbers it makes a single trail of the pen. *)
Theorem C71_cleanup {N : Num} (L : EqLaws N) co tr dop fuel roomy (toInt : T N -> nat) (a : attrs N) n (p : path N) :
  ((exists f, at_float a "precision" = Some f /\ toInt f = n) \/ (at_float a "precision" = None /\ n = 3%nat)) ->
  exists t q, MakeTransform co tr dop fuel roomy toInt "cleanup" a = Ok t /\ t p = Ok q /\
    Forall2 (realigned n) (drawn (filter (fun g => negb (isnan (px (send g)) || isnan (py (send g)))) p)) (drawn q) /\
    (p <> [] -> Forall (fun g => isnan (px (send g)) || isnan (py (send g)) = false) p -> connected q /\ no_double_move q).
Proof.
  intros HP. eexists. eexists. split; [reflexivity|]. split; [reflexivity|]. assert (E : mustInt toInt a "precision" appPrecision = n) by (unfold mustInt; destruct HP as [(f & -> & H)|[-> ->]]; [exact H|reflexivity]). rewrite E.
  split; [apply Cleanup_drawn|]. intros NE HF. destruct (Cleanup_wf L n p NE HF) as (_ & H). exact H.
Qed.
(** "slice" leaves nothing more than a thousandth below the line, under the conditions of C80. *)
Theorem C71_slice bf n jfuel roomy toInt (a : attrs RNum) y (p : path RNum) : at_float a "y" = Some (Fin y) ->
  Forall tame p -> p <> [] -> Forall (Prop_C80.sliceable n y) p -> (exists g, In g (drawn p) /\ (/ 10 ^ n < X (sstart g) \/ / 10 ^ n < X (send g))) ->
  exists t q, MakeTransform (BezierOps RTrig RBMath bf) RTrig (Z.of_nat n) (3 + jfuel) roomy toInt "slice" a = Ok t /\ t p = Ok q /\
    forall h x z, In h (drawn q) -> onSeg h x z -> z <= y + / 1000.
Proof.
  intros Hy HT NE HS HW. destruct (Prop_C80.C80_slice_below_partial bf n jfuel y 3 p HT NE HS HW) as (q & E & B). unfold MakeTransform, registered; cbn [find String.eqb Ascii.eqb Bool.eqb fst snd]. unfold createSlice. rewrite Hy. cbn [need].
  eexists. exists q. split; [reflexivity|]. split; [exact E|]. replace 1000 with (10 ^ 3) by lra. exact B.
Qed.
(** the attributes but for one text *)
Definition without (a : attrs RNum) (k : string) : attrs RNum := mkAttrs (at_point a) (at_float a) (fun k' => if String.eqb k' k then None else at_text a k') (at_bool a).
(** the drawing is smaller in width and in height *)
Definition smaller (f p : path RNum) : Prop := exists tl br tl' br', tightBox (inDrawing f) tl br /\ tightBox (inDrawing p) tl' br' /\ X br - X tl < X br' - X tl' /\ Y br - Y tl < Y br' - Y tl'.
Definition wanted (s : string) (f p : path RNum) : Prop := (s = "smaller"%string /\ smaller f p) \/ (s = "larger"%string /\ smaller p f).
Lemma split_visible (r : path RNum) : forall q, Forall visible r -> (List.length (split_loop false q r []) <= 1)%nat.
Proof.
  induction r as [|g r IH]; intros q H; cbn [split_loop]; [destruct (IsEmptyPath q); cbn; lia|]. inversion H as [|? ? V Hr]; subst. apply visible_isMove in V. rewrite V. cbn [negb andb]. apply IH. exact Hr.
Qed.
Lemma offset_more co dop jf roomy f prec (d : T RNum) : forall (p q : path RNum), OffsetT co dop jf roomy f Unknown prec d p = Ok q -> OffsetT co dop jf roomy (S f) Unknown prec d p = Ok q.
Proof.
  induction f as [|f IH]; intros p q H.
  - cbn [OffsetT] in *. destruct (eqb d zero); [exact H|discriminate].
  - remember (S f) as f' eqn:Ef. cbn [OffsetT]. rewrite Ef in H. cbn [OffsetT] in H. destruct (eqb d zero); [exact H|]. destruct (Nat.ltb 1 (List.length (SplitPathOnMove p))); [|exact H].
    revert H. generalize (SplitPathOnMove p) (NewDraw (N := RNum)). intros l. induction l as [|x l IHl]; intros acc H; [exact H|].
    destruct (OffsetT co dop jf roomy f Unknown prec d x) as [x'| | |] eqn:Ex; try discriminate. apply IH in Ex. rewrite Ex. cbn [bind] in *. apply IHl. exact H.
Qed.
Lemma rebox tr bm bf (p : path RNum) tl br : Forall tame p -> tightBox (inDrawing p) tl br -> BoundingBoxTrimWhitespace (BezierOps tr bm bf) p = Ok (tl, br).
Proof.
  intros HT HB. destruct (BoundingBoxTrimWhitespace_tight _ (BezierOps_boxOk tr bm bf) p HT (Prop_C16.box_drawn _ _ _ HB)) as (tl1 & br1 & EB & T1). destruct (tightBox_unique _ _ _ _ _ HB T1) as [<- <-]. exact EB.
Qed.
(** With a size, a stroke is offset to one side; if that does not make it smaller (or larger), the stroke is run backwards and offset to the other side.  So the result has the size asked for if either side has. *)
Theorem C71_offset_size tr bm bf dop jfuel roomy toInt (a : attrs RNum) s d (p f : path RNum) o e r :
  let off := fun a => MakeTransform (BezierOps tr bm bf) tr dop (S jfuel) roomy toInt "offset" a in
  at_text a "size_should_be" = Some s -> s = "smaller"%string \/ s = "larger"%string -> at_float a "distance" = Some (Fin d) -> d <> 0 ->
  p = Move o e :: r -> Forall visible r -> r <> [] -> Forall tame p -> Forall tame f -> drawn f <> [] ->
  exists t t', off a = Ok t /\ off (without a "size_should_be") = Ok t' /\
    (t' p = Ok f -> (wanted s f p -> t p = Ok f) /\ (~ wanted s f p -> forall q, t p = Ok q -> t' (PathReverse p) = Ok q)).
Proof.
  cbv zeta. intros Es Hs Ed Nd Ep HV NR HT HF ND. unfold MakeTransform, registered; cbn [find String.eqb Ascii.eqb Bool.eqb fst snd]. unfold createOffset. change (at_float (without a "size_should_be") "distance") with (at_float a "distance"). rewrite Ed. cbn [need].
  eexists. eexists. split; [reflexivity|]. split; [reflexivity|]. cbv beta.
  change (mustInt toInt (without a "size_should_be") "precision" 3) with (mustInt toInt a "precision" 3). set (prec := mustInt toInt a "precision" 3). change (sizeOf (without a "size_should_be")) with Unknown.
  set (co := BezierOps tr bm bf). intros H.
  assert (Z : eqb (Fin d : T RNum) zero = false) by (apply Bool.not_true_iff_false; intros E; apply Reqb_true in E; auto).
  assert (LS : Nat.ltb 1 (List.length (SplitPathOnMove p)) = false).
  { apply Nat.ltb_ge. rewrite Ep. unfold SplitPathOnMove. cbn [split_loop negb andb]. apply split_visible. exact HV. }
  assert (Dp : drawn p <> []).
  { rewrite Ep. destruct r as [|g r']; [congruence|]. inversion HV as [|? ? V _]; subst. destruct g; [destruct V|discriminate|discriminate]. }
  assert (TP : exists g l, TrimMove p = g :: l) by (destruct (TrimMove_nonempty p Dp) as (g & l & E & _); eauto). destruct TP as (tg & tl0 & TP).
  cbn [OffsetT] in H |- *. rewrite Z, LS, TP in H |- *. destruct (offsetStroke co dop (S jfuel) roomy prec (Fin d : T RNum) p) as [f'| | |]; try discriminate. cbn [bind] in H |- *. injection H as ->.
  destruct (BoundingBoxTrimWhitespace_tight _ (BezierOps_boxOk tr bm bf) p HT Dp) as (tl & br & Bp & Tp). destruct (BoundingBoxTrimWhitespace_tight _ (BezierOps_boxOk tr bm bf) f HF ND) as (tl' & br' & Bf & Tf). fold co in Bp, Bf.
  pose proof Tp as (F1 & F2 & _). pose proof Tf as (F3 & F4 & _).
  assert (SM : smaller f p <-> X br' - X tl' < X br - X tl /\ Y br' - Y tl' < Y br - Y tl).
  { split; [|intros H; exists tl', br', tl, br; auto]. intros (a1 & b1 & a2 & b2 & T1 & T2 & H). destruct (tightBox_unique _ _ _ _ _ T1 Tf) as [-> ->]. destruct (tightBox_unique _ _ _ _ _ T2 Tp) as [-> ->]. exact H. }
  assert (LG : smaller p f <-> X br - X tl < X br' - X tl' /\ Y br - Y tl < Y br' - Y tl').
  { split; [|intros H; exists tl, br, tl', br'; auto]. intros (a1 & b1 & a2 & b2 & T1 & T2 & H). destruct (tightBox_unique _ _ _ _ _ T2 Tf) as [-> ->]. destruct (tightBox_unique _ _ _ _ _ T1 Tp) as [-> ->]. exact H. }
  assert (SH : exists b, shouldReverse co (sizeOf a) p f = Ok b /\ sizeOf a <> Unknown /\ (b = false <-> wanted s f p)).
  { unfold shouldReverse. rewrite Bp. cbn [bind]. rewrite Bf. cbn [bind]. rewrite (px_fin _ F1), (px_fin _ F2), (px_fin _ F3), (px_fin _ F4), (py_fin _ F1), (py_fin _ F2), (py_fin _ F3), (py_fin _ F4). fin. eexists. split; [reflexivity|].
    unfold sizeOf. rewrite Es. unfold wanted. destruct Hs as [-> | ->]; cbn [String.eqb Ascii.eqb Bool.eqb]; (split; [discriminate|]); rewrite orb_false_iff; unfold geb; rewrite ?fleb.
    - split; [intros [A B]; left; split; [reflexivity|]; apply SM; split; [destruct (Rleb_spec (X br - X tl) (X br' - X tl'))|destruct (Rleb_spec (Y br - Y tl) (Y br' - Y tl'))]; try discriminate; lra|].
      intros [[_ W]|[W _]]; [|discriminate]. apply SM in W. destruct (Rleb_spec (X br - X tl) (X br' - X tl')); [lra|]. destruct (Rleb_spec (Y br - Y tl) (Y br' - Y tl')); [lra|]. auto.
    - split; [intros [A B]; right; split; [reflexivity|]; apply LG; split; [destruct (Rleb_spec (X br' - X tl') (X br - X tl))|destruct (Rleb_spec (Y br' - Y tl') (Y br - Y tl))]; try discriminate; lra|].
      intros [[W _]|[_ W]]; [discriminate|]. apply LG in W. destruct (Rleb_spec (X br' - X tl') (X br - X tl)); [lra|]. destruct (Rleb_spec (Y br' - Y tl') (Y br - Y tl)); [lra|]. auto. }
  destruct SH as (b & SH & NU & HB). split.
  - intros W. apply HB in W. subst b. destruct (sizeOf a); [congruence| |]; rewrite SH; reflexivity.
  - intros W q Q. assert (b = true) as -> by (destruct b; [reflexivity|]; exfalso; apply W, HB; reflexivity).
    assert (Q' : OffsetT co dop (S jfuel) roomy jfuel Unknown prec (Fin d : T RNum) (PathReverse p) = Ok q) by (destruct (sizeOf a); [congruence| |]; rewrite SH in Q; exact Q).
    apply offset_more in Q'. cbn [OffsetT] in Q'. rewrite Z in Q'. exact Q'.
Qed.

(** ** what is not checked *)
(** There is a reorder transform with a factory of its own, but no document can use it. *)
Theorem C71_reorder_refuted {N : Num} co tr dop fuel roomy toInt (a : attrs N) : createReorder toInt a = Ok (fun p => Reorder (mustInt toInt a "precision" 3) p) /\
  MakeTransform co tr dop fuel roomy toInt "reorder" a = Err.
Proof. split; reflexivity. Qed.
(** A handle, an axis or a size that is not understood is not reported: the transform is the one made without it. *)
Definition texted (a : attrs RNum) (k v : string) : attrs RNum := mkAttrs (at_point a) (at_float a) (fun k' => if String.eqb k' k then Some v else at_text a k') (at_bool a).
Theorem C71_unchecked_refuted co tr dop fuel roomy toInt a v : hasComma v = false ->
  let make := @MakeTransform RNum co tr dop fuel roomy toInt in
  (~ In v enumAttr -> make "move"%string (texted a "handle" v) = make "move"%string (without a "handle") /\ make "rotate"%string (texted a "axis" v) = make "rotate"%string (without a "axis")) /\
  (v <> "vertical"%string -> make "mirror"%string (texted a "axis" v) = make "mirror"%string (without a "axis")) /\
  (v <> "smaller"%string -> v <> "larger"%string -> make "offset"%string (texted a "size_should_be" v) = make "offset"%string (without a "size_should_be")).
Proof.
  intros HC. cbv zeta. unfold MakeTransform, registered; cbn [find String.eqb Ascii.eqb Bool.eqb fst snd]. split; [|split].
  - intros HN. assert (E : existsb (String.eqb v) enumAttr = false).
    { destruct (existsb _ _) eqn:E; [|reflexivity]. apply existsb_exists in E. destruct E as (s & HI & HS). apply String.eqb_eq in HS. subst s. contradiction. }
    unfold createMove, createRotate, mustHandle, texted, without. cbn [at_text at_point at_float String.eqb Ascii.eqb Bool.eqb]. unfold ToPathAttr. rewrite HC, E. split; reflexivity.
  - intros HV. unfold createMirror, mustText, texted, without. cbn [at_text String.eqb Ascii.eqb Bool.eqb]. apply String.eqb_neq in HV. rewrite HV. reflexivity.
  - intros H1 H2. apply String.eqb_neq in H1, H2. unfold createOffset, sizeOf, mustInt, texted, without. cbn [at_text at_float String.eqb Ascii.eqb Bool.eqb]. rewrite H1, H2. reflexivity.
Qed.
(** In particular "$CENTER" moves the top left corner, not the centre, to the point; "Vertical" mirrors up and down. *)
Theorem C71_misspelt_refuted bm fuel dop jfuel roomy toInt : let p := [Move (pnt 0 0) (pnt 2 1); Line (pnt 2 1) (pnt 6 9)] in
  let make := MakeTransform (BezierOps RTrig bm fuel) RTrig dop jfuel roomy toInt in
  (exists t q, make "move"%string (Prop_C70.atrR [("to", pnt 100 100)]%string [] [("handle", "$CENTER")]%string) = Ok t /\ t p = Ok q /\ drawn q = [Line (pnt 100 100) (pnt 104 108)]) /\
  (exists t q, make "mirror"%string (Prop_C70.atrR [] [] [("axis", "Vertical")]%string) = Ok t /\ t p = Ok q /\ drawn q = [Line (pnt 2 9) (pnt 6 1)]).
Proof.
  cbv zeta. set (p := [Move _ _; _]).
  assert (H : Forall (within (2 ^ 62)) p /\ tightBox (inDrawing p) (pnt 2 1) (pnt 6 9)).
  { split; [repeat constructor; cbn; apply Rabs_def1; lra|]. apply (tightBox_ext (onSeg (Line (pnt 2 1) (pnt 6 9)))).
    + intros x y. rewrite inDrawing_drawn. unfold p. cbn [drawn]. split; [intros O; eexists; split; [left; reflexivity|auto]|intros (g & [<-|[]] & O); auto].
    + pose proof (lineBox_tight (Line (pnt 2 1) (pnt 6 9)) _ _ (or_introl eq_refl) (finitePt_pnt _ _) (finitePt_pnt _ _)) as G.
      rewrite lineBox_fin in G by reflexivity. cbn [fst snd] in G. rewrite !pnt_X, !pnt_Y in G.
      rewrite !Rmin_left, !Rmax_right in G by lra. exact G. }
  destruct H as [HW HB]. split.
  - destruct (C71_effect bm fuel dop jfuel roomy toInt p _ _ "move" (Prop_C70.atrR [("to", pnt 100 100)]%string [] []) _ _ HW HB (means_move p _ _ (Prop_C70.atrR [("to", pnt 100 100)]%string [] []) 100 100 (pnt 2 1) eq_refl (or_introl (conj eq_refl eq_refl)))) as (t & q & E & T & D).
    exists t, q. split; [rewrite <- E; reflexivity|]. split; [exact T|]. rewrite D. unfold p. cbn [drawn map TransformPoints]. unfold onto. rewrite !pnt_X, !pnt_Y. unfold pnt. repeat f_equal; ring.
  - destruct (C71_effect bm fuel dop jfuel roomy toInt p (pnt 2 1) (pnt 6 9) "mirror" (Prop_C70.atrR [] [] []) (fun u v => u) (fun u v => Y (pnt 2 1) + Y (pnt 6 9) - v) HW HB) as (t & q & E & T & D).
    { apply means_mirror; [left; reflexivity| |]; unfold p, Prop_C18.inBox; cbn [Prop_C18.headPos Prop_C18.tailPos last send]; rewrite !pnt_X, !pnt_Y; lra. }
    exists t, q. split; [rewrite <- E; reflexivity|]. split; [exact T|]. rewrite D. unfold p. cbn [drawn map TransformPoints]. unfold onto. rewrite !pnt_X, !pnt_Y. unfold pnt. repeat f_equal; ring.
Qed.

(** ** examples *)
Definition bm71 : BMath FNum := mkBMath (fun x => x) (fun x _ => x) (fun x => x).
Notation make71 := (MakeTransform (BezierOps noTrig bm71 5) noTrig 12 60 true (fun _ => 3%nat)).
Definition run71 (l : list (string * attrs FNum)) (p : path FNum) := dres (bind (ComponentTransforms (BezierOps noTrig bm71 5) noTrig 12 60 true (fun _ => 3%nat) l p) (fun r => Ok (fst r))).
(** a matrix with every attribute and one without f *)
Definition mat71 (fs : list string) : attrs FNum := Prop_C70.atrF [] (map (fun s => (s, fz 2)) fs) [].
Example C71_made_example : (exists t, make71 "matrix"%string (mat71 ["a"; "b"; "c"; "d"; "e"; "f"]%string) = Ok t) /\ make71 "matrix"%string (mat71 ["a"; "b"; "c"; "d"; "e"]%string) = Err /\
  make71 "skew"%string (mat71 ["a"]%string) = Err.
Proof. split; [eexists; reflexivity|]. split; reflexivity. Qed.
(** twice as large and then moved, moved and then twice as large *)
Definition twice : string * attrs FNum := ("scale"%string, Prop_C70.atrF [] [("scale_x", fz 2); ("scale_y", fz 2)]%string []).
Definition to5 : string * attrs FNum := ("move"%string, Prop_C70.atrF [("to", pt 5 5)]%string [] [("handle", "$TOP_LEFT")]%string).
Example C71_in_order_example : let p := [mv 0 0 2 1; ln 2 1 6 9] in
  run71 [twice; to5] p = dres (Ok [Move (pt 0 0) (pt 5 5); ln 5 5 13 21]) /\ run71 [to5; twice] p = dres (Ok [Move (pt 0 0) (pt 10 10); ln 10 10 18 26]) /\
  run71 [twice; to5; ("skew"%string, mat71 [])] p = dres Err.
Proof. vm_compute. auto. Qed.
Example C71_in_order_hypotheses : Forall (fun e => exists t, make71 (fst e) (snd e) = Ok t) [to5; twice] /\ ~ (exists t, make71 "skew"%string (mat71 []) = Ok t).
Proof. split; [repeat constructor; eexists; reflexivity|intros (t & H); discriminate H]. Qed.
Example C71_defaults_example : In ("move", ("handle", VT "$TOP_LEFT"))%string defaults /\ left_out (Prop_C70.atrF [("to", pt 5 5)]%string [] []) "handle" (VT "$TOP_LEFT").
Proof. split; [cbn [In defaults]; auto 20|reflexivity]. Qed.
(** the centre of a drawing to the origin, and a drawing twice as wide *)
Example C71_effect_hypotheses : let p := [Move (pnt 0 0) (pnt 2 1); Line (pnt 2 1) (pnt 6 9)] in
  Forall (within (2 ^ 62)) p /\ tightBox (inDrawing p) (pnt 2 1) (pnt 6 9) /\
  means p (pnt 2 1) (pnt 6 9) (Prop_C70.atrR [("to", pnt 0 0)]%string [] [("handle", "$MIDDLE_MIDDLE")]%string) "move" (fun u v => u + (0 - X (pnt 4 5))) (fun u v => v + (0 - Y (pnt 4 5))) /\
  means p (pnt 2 1) (pnt 6 9) (Prop_C70.atrR [] [("width", Fin 8 : ER)]%string []) "scale" (fun u v => 8 / (X (pnt 6 9) - X (pnt 2 1)) * u) (fun u v => 8 / (X (pnt 6 9) - X (pnt 2 1)) * v).
Proof.
  cbv zeta. set (p := [Move _ _; _]). split; [repeat constructor; cbn; apply Rabs_def1; lra|]. split; [|split].
  - apply (tightBox_ext (onSeg (Line (pnt 2 1) (pnt 6 9)))).
    + intros x y. rewrite inDrawing_drawn. unfold p. cbn [drawn]. split; [intros O; eexists; split; [left; reflexivity|auto]|intros (g & [<-|[]] & O); auto].
    + pose proof (lineBox_tight (Line (pnt 2 1) (pnt 6 9)) _ _ (or_introl eq_refl) (finitePt_pnt _ _) (finitePt_pnt _ _)) as G.
      rewrite lineBox_fin in G by reflexivity. cbn [fst snd] in G. rewrite !pnt_X, !pnt_Y in G.
      rewrite !Rmin_left, !Rmax_right in G by lra. exact G.
  - apply means_move; [reflexivity|]. right. left. exists "$MIDDLE_MIDDLE"%string, (1 / 2, 1 / 2). split; [reflexivity|]. split; [unfold Prop_C69.boxNames; cbn [In]; auto 20|]. cbn [fst snd]. rewrite !pnt_X, !pnt_Y. unfold pnt. repeat f_equal; lra.
  - apply (means_width p _ _ _ 8 0 1 1); try (left; reflexivity); try (right; split; reflexivity); rewrite ?pnt_X; lra.
Qed.
Example C71_effect_example : let p := [mv 0 0 2 1; ln 2 1 6 9] in
  run71 [("move", Prop_C70.atrF [("to", pt 0 0)]%string [] [("handle", "$MIDDLE_MIDDLE")]%string)]%string p = dres (Ok [mv 0 0 (-2) (-4); ln (-2) (-4) 2 4]) /\
  run71 [("scale", Prop_C70.atrF [] [("width", fz 8)]%string [])]%string p = dres (Ok [mv 0 0 4 2; ln 4 2 12 18]) /\
  run71 [("mirror", Prop_C70.atrF [] [] [("axis", "vertical")]%string)]%string p = dres (Ok [mv 0 0 6 1; ln 6 1 2 9]) /\
  run71 [("trim", Prop_C70.atrF [] [] [])]%string p = dres (Ok [mv 0 0 0 0; ln 0 0 4 8]).
Proof. vm_compute. auto. Qed.
Example C71_reverse_example : let p := [mv 0 0 2 1; ln 2 1 6 9; ln 6 9 3 3] in connected p /\ run71 [("reverse", mat71 [])]%string p = dres (Ok [mv 0 0 3 3; ln 3 3 6 9; ln 6 9 2 1; mv 2 1 0 0]).
Proof. split; [cbn [connected]; repeat first [apply chain_nil|apply chain_cons; [left; reflexivity|]]|vm_compute; reflexivity]. Qed.
Example C71_rotate_scale_hypotheses : let p := [Move (pnt 0 0) (pnt 2 1); Line (pnt 2 1) (pnt 6 9)] in
  Forall tame p /\ Prop_C50.firstPoint p (pnt 2 1) /\ Prop_C50.lastPoint p (pnt 6 9) /\ pnt 2 1 <> pnt 6 9 /\
  place (Prop_C70.atrR [("end_point", pnt 7 7)]%string [] []) "start_point" (pnt 0 0) /\ place (Prop_C70.atrR [("end_point", pnt 7 7)]%string [] []) "end_point" (pnt 7 7).
Proof.
  cbv zeta. split; [repeat constructor|]. split; [eexists; eexists; split; reflexivity|]. split; [exists [], (Line (pnt 2 1) (pnt 6 9)); split; reflexivity|]. split; [intros H; injection H; lra|].
  split; (split; [apply finitePt_pnt|]); [right; split; reflexivity|left; reflexivity].
Qed.
Example C71_unchecked_hypotheses : hasComma "$CENTER" = false /\ ~ In "$CENTER"%string enumAttr /\ "$CENTER"%string <> "vertical"%string.
Proof. split; [reflexivity|]. split; [|discriminate]. cbn [In enumAttr]. intros H. repeat destruct H as [H|H]; try discriminate; contradiction. Qed.

(** tidied to one decimal and to three: a start that is 0.01 off is moved to the pen, or reached by a move *)
Example C71_cleanup_example : let p := [mv 0 0 1 1; ln 1 1 2 2; Line (@mkPt FNum (flt 201 (-2)) (fz 2)) (pt 5 5)] in
  let run := fun n l => dres (bind (MakeTransform (BezierOps noTrig bm71 5) noTrig 12 60 true (fun _ => n) "cleanup" (Prop_C70.atrF [] l [])) (fun t => t p)) in
  run 1%nat [("precision"%string, fz 1)] = dres (Ok [mv 0 0 1 1; ln 1 1 2 2; mv 2 2 2 2; ln 2 2 5 5]) /\
  run 1%nat [] = dres (Ok [mv 0 0 1 1; ln 1 1 2 2; Move (pt 2 2) (@mkPt FNum (flt 201 (-2)) (fz 2)); Line (@mkPt FNum (flt 201 (-2)) (fz 2)) (pt 5 5)]).
Proof. split; vm_compute; reflexivity. Qed.
(** two lines down to the right, sliced at 0 *)
Example C71_slice_example bf roomy toInt : exists t q, MakeTransform (BezierOps RTrig RBMath bf) RTrig 3 3 roomy toInt "slice"%string (Prop_C70.atrR [] [("y"%string, Fin 0 : ER)] []) = Ok t /\
  t [Move (pnt 0 0) (pnt 0 3); Line (pnt 0 3) (pnt 3 (-3)); Line (pnt 3 (-3)) (pnt 5 3)] = Ok q /\ forall h x z, In h (drawn q) -> onSeg h x z -> z <= 0 + / 1000.
Proof.
  assert (P7 : / 10 ^ 7 = 1 / 10000000) by (simpl; lra). assert (P3 : / 10 ^ 3 = 1 / 1000) by (simpl; lra).
  apply (C71_slice bf 3 0 roomy toInt _ 0); [reflexivity|repeat constructor|discriminate| |].
  - constructor; [exact I|]. constructor; [|constructor; [|constructor]]; cbn [Prop_C80.sliceable]; unfold SliceProofs.notFlat, SliceProofs.clear; cbn [sstart send]; rewrite !pnt_X, !pnt_Y, P7; (split; [lra|]); (split; [lra|]); (split; [right; unfold Rabs; repeat destruct (Rcase_abs _); simpl; lra|]);
      split; right; unfold Rabs; destruct (Rcase_abs _); lra.
  - exists (Line (pnt 0 3) (pnt 3 (-3))). split; [left; reflexivity|]. right. cbn [send]. rewrite pnt_X, P3. lra.
Qed.
(** a rectangle that is to shrink and to grow, whichever way it runs; and the hypotheses for a line *)
Example C71_offset_size_run : let r := [mv 0 0 1 1; ln 1 1 5 1; ln 5 1 5 9; ln 5 9 1 9; ln 1 9 1 1] in
  let run := fun s => dres (bind (MakeTransform noCurves noTrig 3 100 true (fun _ => 3%nat) "offset" (Prop_C70.atrF [] [("distance"%string, fz 1)] [("size_should_be"%string, s)])) (fun t => t r)) in
  run "smaller"%string = dres (Ok [mv 0 0 2 2; ln 2 2 4 2; ln 4 2 4 8; ln 4 8 2 8; ln 2 8 2 2]) /\ run "larger"%string = dres (Ok [mv 0 0 0 0; ln 0 0 0 10; ln 0 10 6 10; ln 6 10 6 0; ln 6 0 0 0]).
Proof. split; vm_compute; reflexivity. Qed.
Example C71_offset_size_hypotheses tr bm bf roomy toInt : let p := [Move (pnt 0 0) (pnt 0 0); Line (pnt 0 0) (pnt 4 3)] in
  exists t f, MakeTransform (BezierOps tr bm bf) tr 3 2 roomy toInt "offset"%string (without (Prop_C70.atrR [] [("distance"%string, Fin 1 : ER)] [("size_should_be", "larger")%string]) "size_should_be") = Ok t /\
    t p = Ok f /\ Forall tame p /\ Forall tame f /\ drawn f <> [].
Proof.
  cbv zeta. destruct (Prop_C40.C40_single_line (BezierOps tr bm bf) 3 0 roomy 1 (mustInt toInt (Prop_C70.atrR [] [("distance"%string, Fin 1 : ER)] []) "precision" 3) 1 (pnt 0 0) 0 0 4 3) as (q & h & E & -> & PA); [lra|apply Prop_C40.C40_example|].
  destruct PA as (x1 & y1 & x2 & y2 & ax & ay & bx & by_ & ax' & ay' & bx' & by_' & _ & _ & -> & _). eexists. eexists. split; [reflexivity|]. split; [exact E|]. split; [repeat constructor|]. split; [repeat constructor|discriminate].
Qed.
