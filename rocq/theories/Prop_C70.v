(** C70: the draw component carries out its commands in order. *)
From Coq Require Import String Ascii List ZArith Bool Reals Lra Lia.
From Verif Require Import Num FloatNum RealNum RealTrig PathModel DrawModel SegOps TransformsModel Bezier GeomTransforms SvgParse PathSpec PathProofs GeomSpec GeomProofs Witness TextProofs SvgProofs SvgText BezierProofs Components DrawComp CompProofs Prop_C58.
From Verif Require Prop_C39 Prop_C50 Prop_C52 Prop_C63.
Import ListNotations.
Local Open Scope R_scope.
Local Open Scope list_scope.

(** ** for every arithmetic: what is drawn stays, and errors *)
Section Any.
Context {N : Num}.
Variable co : CurveOps N.
Variable tr : Trig N.

Lemma svg_extends (d p : path N) to rev q : svgScaleTo co d p to rev = Ok q \/ svgRotateScaleTo co tr d p to rev = Ok q -> extends d q.
Proof.
  unfold svgScaleTo, svgRotateScaleTo. destruct (GetStartAndEnd d) as [a b]. intros [H|H].
  - destruct (ScaleT _ _ _) as [r| | |]; try discriminate. cbn [bind] in H. destruct (MoveT _ _ _ _) as [s| | |]; try discriminate. injection H as <-. apply AddSegments_extends.
  - destruct (RotateScaleT _ _ _ _ _) as [r| | |]; try discriminate. injection H as <-. apply AddSegments_extends.
Qed.
Lemma command_extends name a d q : drawCommand co tr name a d = Ok q -> extends d q.
Proof.
  unfold drawCommand, need.
  repeat match goal with
  | |- (if String.eqb name ?n then _ else _) = _ -> _ => destruct (String.eqb name n)
  end.
  all: repeat match goal with |- match ?o with Some _ => _ | None => _ end = _ -> _ => destruct o; [|discriminate] end.
  all: try (intros [= <-]; match goal with
    | |- extends _ (MoveTo _ ?p) => apply (drawstep_extends tr d (OMoveTo p)) | |- extends _ (RelMoveTo _ ?p) => apply (drawstep_extends tr d (ORelMoveTo p))
    | |- extends _ (LineByAngle _ _ ?l ?x) => apply (drawstep_extends tr d (OLineByAngle l x)) | |- extends _ (LineTo _ ?p) => apply (drawstep_extends tr d (OLineTo p))
    | |- extends _ (RelLineTo _ ?p) => apply (drawstep_extends tr d (ORelLineTo p)) | |- extends _ (CurveTo _ ?x ?y ?p) => apply (drawstep_extends tr d (OCurveTo x y p))
    | |- extends _ (RelCurveTo _ ?x ?y ?p) => apply (drawstep_extends tr d (ORelCurveTo x y p)) | |- extends _ (SmoothCurveTo _ ?x ?p) => apply (drawstep_extends tr d (OSmoothCurveTo x p))
    | |- extends _ (RelSmoothCurveTo _ ?x ?p) => apply (drawstep_extends tr d (ORelSmoothCurveTo x p)) | |- extends _ (Circle _ ?r) => apply (drawstep_extends tr d (OCircle r))
    | |- extends _ (Rect _ ?w ?h) => apply (drawstep_extends tr d (ORect w h)) | |- extends _ (RoundedCornerTo _ _ ?p ?x ?r) => apply (drawstep_extends tr d (ORoundedCornerTo p x r))
    | |- extends _ (RelRoundedCornerTo _ _ ?p ?x ?r) => apply (drawstep_extends tr d (ORelRoundedCornerTo p x r)) end).
  - unfold SvgPath. destruct (ParsePathFromSvg _) as [pp| | |]; try discriminate. intros [= <-]. apply AddSegments_extends.
  - destruct (ParsePathFromSvg _) as [pp| | |]; try discriminate. cbn [bind]. intros H. eapply svg_extends. left. exact H.
  - destruct (ParsePathFromSvg _) as [pp| | |]; try discriminate. cbn [bind]. intros H. eapply svg_extends. left. exact H.
  - destruct (ParsePathFromSvg _) as [pp| | |]; try discriminate. cbn [bind]. intros H. eapply svg_extends. right. exact H.
  - destruct (ParsePathFromSvg _) as [pp| | |]; try discriminate. cbn [bind]. intros H. eapply svg_extends. right. exact H.
Qed.
Lemma commands_app cs cs' d : drawCommands co tr (cs ++ cs') d = bind (drawCommands co tr cs d) (drawCommands co tr cs').
Proof. revert d. induction cs as [|[name a] cs IH]; intros d; [reflexivity|]. cbn [app drawCommands]. destruct (drawCommand _ _ _ _ _) as [q| | |]; try reflexivity. cbn [bind]. apply IH. Qed.
Lemma commands_extend cs d q : drawCommands co tr cs d = Ok q -> extends d q.
Proof.
  revert d. induction cs as [|[name a] cs IH]; intros d; cbn [drawCommands]; [intros [= <-]; apply extends_refl|]. destruct (drawCommand co tr name a d) as [r| | |] eqn:E; try discriminate. cbn [bind].
  intros H. eapply extends_trans; [eapply command_extends; exact E|apply IH; exact H].
Qed.

(** The drawing starts with a move from the origin to the cursor and is connected; a command changes nothing of what was drawn before it; the
    cursor passed on is the end of the last segment. *)
Theorem C70_connected cs cs' cursor q q' c c' : DrawRender co tr [] cs cursor = Ok (q, c) -> DrawRender co tr [] (cs ++ cs') cursor = Ok (q', c') ->
  (exists r, q = Move origin cursor :: r) /\ connected q /\ (exists r, q' = q ++ r) /\ exists i g, q = i ++ [g] /\ send g = c.
Proof.
  unfold DrawRender. rewrite commands_app. destruct (drawCommands co tr cs (MoveTo NewDraw cursor)) as [p| | |] eqn:E; try discriminate. cbn [bind].
  assert (HT : forall (p q : path N) c, HandleTransforms [] p = Ok (q, c) -> p = q /\ exists i g, q = i ++ [g] /\ send g = c).
  { clear. intros p q c. unfold HandleTransforms, PathCursor. cbn [applyTransforms bind]. destruct (Tail p) as [g|] eqn:ET; try discriminate. cbn [bind]. intros [= <- <-]. split; [reflexivity|].
    destruct p as [|h r]; [discriminate|]. destruct (@exists_last _ (h :: r)) as (i & z & Ez); [discriminate|]. rewrite Ez, Tail_snoc in ET. injection ET as ->. eauto. }
  intros H H'. destruct (HT _ _ _ H) as (<- & HE). destruct (drawCommands co tr cs' p) as [p'| | |] eqn:E'; try discriminate. cbn [bind] in H'. destruct (HT _ _ _ H') as (<- & _).
  destruct (commands_extend _ _ _ E) as (s & -> & C). destruct (commands_extend _ _ _ E') as (s' & -> & _). split; [exists s; reflexivity|]. split; [|split; [eauto|exact HE]].
  cbn [MoveTo NewDraw app connected sstart] in *. constructor; [left; reflexivity|]. cbn [MoveTo NewDraw app pen send] in C. exact C.
Qed.

(** the attributes each command needs *)
Inductive kind := APointKind | AFloatKind | ATextKind.
Definition needs : list (string * list (kind * string)) :=
  [("move", [(APointKind, "to")]); ("rel_move", [(APointKind, "to")]); ("line_by_angle", [(AFloatKind, "length"); (AFloatKind, "angle")]);
   ("line", [(APointKind, "to")]); ("rel_line", [(APointKind, "to")]);
   ("curve", [(APointKind, "to"); (APointKind, "ctrl_start"); (APointKind, "ctrl_end")]); ("rel_curve", [(APointKind, "to"); (APointKind, "ctrl_start"); (APointKind, "ctrl_end")]);
   ("smooth_curve", [(APointKind, "to"); (APointKind, "ctrl_end")]); ("rel_smooth_curve", [(APointKind, "to"); (APointKind, "ctrl_end")]);
   ("circle", [(AFloatKind, "radius")]); ("rectangle", [(AFloatKind, "width"); (AFloatKind, "height")]);
   ("round_corner", [(AFloatKind, "radius"); (APointKind, "to"); (APointKind, "corner")]); ("rel_round_corner", [(AFloatKind, "radius"); (APointKind, "to"); (APointKind, "corner")]);
   ("svg", [(ATextKind, "svg")]); ("svg_scale_to", [(ATextKind, "svg"); (APointKind, "to")]); ("rel_svg_scale_to", [(ATextKind, "svg"); (APointKind, "to")]);
   ("svg_connect_to", [(ATextKind, "svg"); (APointKind, "to")]); ("rel_svg_connect_to", [(ATextKind, "svg"); (APointKind, "to")])]%string.
Definition absent (a : attrs N) (k : kind * string) : Prop :=
  match fst k with APointKind => at_point a (snd k) = None | AFloatKind => at_float a (snd k) = None | ATextKind => at_text a (snd k) = None end.
Lemma absent_dec a k : {absent a k} + {~ absent a k}.
Proof. unfold absent. destruct (fst k); [destruct (at_point a (snd k))|destruct (at_float a (snd k))|destruct (at_text a (snd k))]; auto; right; discriminate. Qed.
Lemma need_none {A B} (o : option A) (f : A -> res B) : (forall x, f x = Err) -> need o f = Err.
Proof. intros H. destruct o; [apply H|reflexivity]. Qed.

(** An unknown command, or one without an attribute it needs, is an error, whatever was drawn before and whatever follows.  A command without
    svg text that has what it needs cannot fail. *)
Theorem C70_errors cs name a rest ts cursor : (exists q, drawCommands co tr cs (MoveTo NewDraw cursor) = Ok q) ->
  (forall ks, In (name, ks) needs -> Exists (absent a) ks) -> DrawRender co tr ts (cs ++ (name, a) :: rest) cursor = Err.
Proof.
  intros (q & Eq) H. unfold DrawRender. rewrite commands_app, Eq. cbn [bind drawCommands]. enough (E : drawCommand co tr name a q = Err) by (rewrite E; reflexivity).
  unfold drawCommand.
  repeat match goal with
  | |- (if String.eqb name ?n then _ else _) = _ =>
      destruct (String.eqb_spec name n) as [->|?];
      [specialize (H _ ltac:(cbn [In needs]; repeat first [left; reflexivity|right]));
       repeat match goal with
       | X : Exists _ (_ :: _) |- _ => apply Exists_cons in X; destruct X as [X|X]
       | X : Exists _ [] |- _ => apply Exists_nil in X; destruct X
       end; unfold absent in H; cbn [fst snd] in H; repeat (try (rewrite H; reflexivity); apply need_none; intros ?)|]
  end.
  reflexivity.
Qed.
Theorem C70_total cs ts cursor : (forall name a, In (name, a) cs -> exists ks, In (name, ks) needs /\ Forall (fun k => fst k <> ATextKind /\ ~ absent a k) ks) ->
  exists q, drawCommands co tr cs (MoveTo NewDraw cursor) = Ok q /\ DrawRender co tr ts cs cursor = HandleTransforms ts q.
Proof.
  intros H. enough (G : forall d, exists q, drawCommands co tr cs d = Ok q) by (destruct (G (MoveTo NewDraw cursor)) as (q & E); exists q; split; [exact E|]; unfold DrawRender; rewrite E; reflexivity).
  induction cs as [|[name a] cs IH]; intros d; cbn [drawCommands]; [eauto|].
  destruct (H name a (or_introl eq_refl)) as (ks & HI & HF). assert (exists q, drawCommand co tr name a d = Ok q) as (q & E); [|rewrite E; cbn [bind]; apply IH; intros; apply H; right; assumption].
  cbn [needs In] in HI.
  repeat destruct HI as [HI|HI]; try contradiction; injection HI as <- <-; repeat match goal with X : Forall _ (_ :: _) |- _ => inversion X; clear X; subst end; unfold absent in *; cbn [fst snd] in *;
    repeat match goal with X : _ /\ _ |- _ => destruct X end; try congruence; unfold drawCommand; cbn [String.eqb Ascii.eqb Bool.eqb]; unfold need;
    repeat match goal with X : ?o <> None |- context [match ?o with Some _ => _ | None => Err end] => destruct o; [|congruence] end; eauto.
Qed.
End Any.

(** ** in exact arithmetic: what the commands draw *)
Inductive instr :=
| IMove (rel : bool) (x y : R) | ILine (rel : bool) (x y : R)
| ICurve (rel : bool) (x1 y1 x2 y2 x y : R) | ISmooth (rel : bool) (x2 y2 x y : R)
| IAngle (len angle : R) | IRect (w h : R) | ICircle (r : R)
| ISvg (l : list spaced) (after : string).
Definition spelled (i : instr) : string :=
  (match i with
  | IMove rel _ _ => if rel then "rel_move" else "move" | ILine rel _ _ => if rel then "rel_line" else "line"
  | ICurve rel _ _ _ _ _ _ => if rel then "rel_curve" else "curve" | ISmooth rel _ _ _ _ => if rel then "rel_smooth_curve" else "smooth_curve"
  | IAngle _ _ => "line_by_angle" | IRect _ _ => "rectangle" | ICircle _ => "circle" | ISvg _ _ => "svg"
  end)%string.
(** the attributes carry the numbers; svg text starts with a move to a place *)
Definition carries (a : attrs RNum) (i : instr) : Prop :=
  match i with
  | IMove _ x y | ILine _ x y => at_point a "to" = Some (pnt x y)
  | ICurve _ x1 y1 x2 y2 x y => at_point a "to" = Some (pnt x y) /\ at_point a "ctrl_start" = Some (pnt x1 y1) /\ at_point a "ctrl_end" = Some (pnt x2 y2)
  | ISmooth _ x2 y2 x y => at_point a "to" = Some (pnt x y) /\ at_point a "ctrl_end" = Some (pnt x2 y2)
  | IAngle len angle => at_float a "length" = Some (Fin len) /\ at_float a "angle" = Some (Fin angle)
  | IRect w h => at_float a "width" = Some (Fin w) /\ at_float a "height" = Some (Fin h)
  | ICircle r => at_float a "radius" = Some (Fin r)
  | ISvg l after => at_text a "svg" = Some (text l after) /\ spacing_ok false l /\ blank after /\ exists x y b g r, l = Spaced b (CMove false x y) g :: r
  end.
Definition says (c : string * attrs RNum) (i : instr) : Prop := fst c = spelled i /\ carries (snd c) i.

(** what is drawn: [here] is the end of the path so far, [mirrored] the mirror image of its last control point *)
Definition spot (rel : bool) (p : path RNum) (x y : R) : Pt RNum := if rel then pnt (X (here p) + x) (Y (here p) + y) else pnt x y.
Definition traces (p : path RNum) (i : instr) : path RNum :=
  p ++
  match i with
  | IMove rel x y => [Move (here p) (spot rel p x y)]
  | ILine rel x y => [Line (here p) (spot rel p x y)]
  | ICurve rel x1 y1 x2 y2 x y => [Curve (here p) (spot rel p x1 y1) (spot rel p x y) (spot rel p x2 y2)]
  | ISmooth rel x2 y2 x y => [Curve (here p) (mirrored p) (spot rel p x y) (spot rel p x2 y2)]
  | IAngle len angle => [Line (here p) (pnt (X (here p) + len * cos (angle * PI / 180)) (Y (here p) + len * sin (angle * PI / 180)))]
  | IRect w h => let '(x, y) := (X (here p), Y (here p)) in
      [Line (pnt x y) (pnt (x + w) y); Line (pnt (x + w) y) (pnt (x + w) (y + h)); Line (pnt (x + w) (y + h)) (pnt x (y + h)); Line (pnt x (y + h)) (pnt x y)]
  | ICircle r => let '(cx, cy) := (X (here p) + r, Y (here p) + r) in Move (here p) (pnt cx (cy - r)) :: Prop_C52.circleAt cx cy r
  | ISvg l _ => match fold_left draws (map command l) [] with Move _ e :: r => Move (here p) e :: r | _ => [] end
  end.

Lemma here_snoc p g : here (p ++ [g]) = send g.
Proof. unfold here. rewrite rev_unit. reflexivity. Qed.
Lemma abs_spot p x y : Forall finiteSeg p -> ToAbsPosition p (pnt x y) = spot true p x y.
Proof. intros H. pose proof (here_finite p H) as F. unfold ToAbsPosition. rewrite here_pos, (px_fin _ F), (py_fin _ F). cbn [px py pnt]. fin. apply NewPoint_fin. Qed.
Lemma spot_finite rel p x y : finitePt (spot rel p x y).
Proof. destruct rel; apply finitePt_pnt. Qed.
Lemma chain_draws cs : forall p : path RNum, Forall finiteSeg p -> p <> [] -> exists r, fold_left draws cs p = p ++ r /\ chain (here p) r /\ Forall finiteSeg r.
Proof.
  induction cs as [|c cs IH]; intros p F NP; [exists []; rewrite app_nil_r; repeat constructor|]. cbn [fold_left].
  assert (E : exists r, draws p c = p ++ r /\ chain (here p) r /\ Forall finiteSeg r /\ pen (here p) r = here (draws p c) ).
  { pose proof (draws_finite p c F) as DF. unfold draws in *. eexists. split; [reflexivity|]. apply Forall_app in DF. destruct DF as [_ DF]. split; [|split; [exact DF|]].
    - destruct c; repeat constructor.
    - destruct c; rewrite ?here_snoc, ?app_nil_r; reflexivity. }
  destruct E as (r & E & C & FR & PE). destruct (IH (draws p c)) as (r' & E' & C' & F'); [apply draws_finite; exact F|rewrite E; destruct p; [congruence|discriminate]|].
  exists (r ++ r'). rewrite E', E, app_assoc. split; [reflexivity|]. split; [|apply Forall_app; auto]. apply chain_app. split; [exact C|]. rewrite PE. exact C'.
Qed.
Lemma AddSegments_chain (d q : path RNum) : d <> [] -> chain (here d) q -> AddSegments d q = d ++ q.
Proof.
  revert d. induction q as [|g q IH]; intros d ND C; [symmetry; apply app_nil_r|]. inversion C as [|c0 g0 l0 SP C']; subst. unfold AddSegments. cbn [fold_left]. rewrite AddSegment_connected; [|exact ND|rewrite <- CurrentPosition_pen, here_pos; exact SP].
  change (fold_left AddSegment q (d ++ [g])) with (AddSegments (d ++ [g]) q). rewrite IH; [rewrite <- app_assoc; reflexivity|destruct d; discriminate|rewrite here_snoc; exact C'].
Qed.
Lemma svg_traces (d : path RNum) l after : d <> [] -> Forall finiteSeg d -> spacing_ok false l -> blank after -> (exists x y b g r, l = Spaced b (CMove false x y) g :: r) ->
  SvgPath d (text l after) = Ok (traces d (ISvg l after)) /\ Forall finiteSeg (traces d (ISvg l after)) .
Proof.
  intros ND FD HS HB (x & y & b & g & r & ->). unfold SvgPath. rewrite C58_reads_partial by assumption. cbn [bind map command fold_left].
  set (e := pnt (dec_val x) (dec_val y)). assert (E0 : draws [] (CMove false x y) = [Move (pnt 0 0) e]) by reflexivity.
  assert (F0 : Forall finiteSeg [Move (pnt 0 0) e]) by (repeat constructor).
  destruct (chain_draws (map command r) [Move (pnt 0 0) e] F0) as (q & EQ & CQ & FQ); [discriminate|].
  unfold traces. cbn [map command fold_left]. rewrite E0, EQ. cbn [app].
  assert (ES : AddSegment d (Move (pnt 0 0) e) = d ++ [Move (here d) e]).
  { unfold AddSegment. destruct d as [|h d]; [congruence|]. rewrite here_pos. destruct (ptEquals _ _) eqn:EP; [|reflexivity].
    apply ptEquals_same_place in EP. cbn [sstart] in EP. pose proof (here_finite _ FD) as FH. destruct EP as [EP|[EX EY]]; [rewrite EP; reflexivity|].
    rewrite (px_fin _ FH) in EX. rewrite (py_fin _ FH) in EY. cbn [px py pnt] in EX, EY. rewrite feqb in EX, EY. apply Reqb_true in EX, EY. rewrite (pnt_eta _ FH), EX, EY. reflexivity. }
  split.
  - f_equal. change (AddSegments d (Move (pnt 0 0) e :: q)) with (AddSegments (AddSegment d (Move (pnt 0 0) e)) q). rewrite ES, AddSegments_chain; [rewrite <- app_assoc; reflexivity|destruct d; discriminate|rewrite here_snoc; exact CQ].
  - apply Forall_app. split; [exact FD|]. constructor; [split; [apply here_finite; exact FD|apply finitePt_pnt]|exact FQ].
Qed.
Lemma traces_ne p i : p <> [] -> traces p i <> [].
Proof. unfold traces. destruct p; [congruence|discriminate]. Qed.

Lemma command_traces co name a i (d : path RNum) : d <> [] -> Forall finiteSeg d -> says (name, a) i -> drawCommand co RTrig name a d = Ok (traces d i) /\ Forall finiteSeg (traces d i).
Proof.
  intros ND FD [HN HC]. cbn [fst snd] in *. pose proof (here_finite d FD) as FH. assert (FM : finitePt (mirrored d)) by (unfold mirrored; destruct (rev d) as [|[] ?]; auto; apply finitePt_pnt).
  assert (FA : forall s, Forall finiteSeg s -> Forall finiteSeg (d ++ s)) by (intros; apply Forall_app; auto).
  destruct i as [rel x y|rel x y|rel x1 y1 x2 y2 x y|rel x2 y2 x y|len angle|w h|r|l after]; cbn [spelled carries] in *; subst name; try (destruct rel).
  1-8: unfold drawCommand; cbn [String.eqb Ascii.eqb Bool.eqb]; repeat match goal with X : _ /\ _ |- _ => destruct X end; repeat match goal with X : _ = Some _ |- _ => rewrite X; clear X end; cbn [need]; unfold traces, RelMoveTo, RelLineTo, RelCurveTo, RelSmoothCurveTo, MoveTo, LineTo, CurveTo;
       rewrite ?abs_spot by exact FD; rewrite ?smooth_draws by exact FD; rewrite ?here_pos; (split; [reflexivity|]); apply FA; repeat constructor; auto; try apply spot_finite.
  - destruct HC as [H1 H2]. unfold drawCommand; cbn [String.eqb Ascii.eqb Bool.eqb]. rewrite H1, H2. cbn [need]. unfold traces, LineByAngle, NewLineSegmentAngle, DegreesToRadians. rewrite here_pos, (px_fin _ FH), (py_fin _ FH). cbn [npi RTrig]. fin. rewrite fdiv by lra. fin. cbn [nsin ncos RTrig er_sin er_cos]. fin. rewrite NewPoint_fin.
    split; [|apply FA; repeat constructor; auto]. do 4 f_equal. replace (PI / 180 * angle) with (angle * PI / 180) by field. unfold pnt. f_equal; f_equal; ring.
  - destruct HC as [H1 H2]. unfold drawCommand; cbn [String.eqb Ascii.eqb Bool.eqb]. rewrite H1, H2. cbn [need]. unfold traces. split; [|apply FA; repeat constructor]. f_equal. unfold Rect, RelLineTo, LineTo. fin. rewrite !NewPoint_fin.
    rewrite abs_spot by exact FD. rewrite here_pos. unfold spot.
    assert (F1 : Forall finiteSeg (d ++ [Line (here d) (pnt (X (here d) + w) (Y (here d) + 0))])) by (apply FA; repeat constructor; auto).
    rewrite (abs_spot _ 0 h F1). unfold spot. rewrite here_pos, here_snoc. cbn [send]. rewrite !pnt_X, !pnt_Y.
    match goal with |- context [ToAbsPosition (((d ++ ?a) ++ ?b)) (pnt (- w) 0)] => assert (F2 : Forall finiteSeg ((d ++ a) ++ b)) by (apply Forall_app; split; [exact F1|repeat constructor]) end.
    rewrite (abs_spot _ (- w) 0 F2). unfold spot. rewrite here_pos, here_snoc. cbn [send]. rewrite !pnt_X, !pnt_Y.
    match goal with |- context [ToAbsPosition ((((d ++ ?a) ++ ?b) ++ ?c)) (pnt 0 (- h))] => assert (F3 : Forall finiteSeg (((d ++ a) ++ b) ++ c)) by (apply Forall_app; split; [exact F2|repeat constructor]) end.
    rewrite (abs_spot _ 0 (- h) F3). unfold spot. rewrite here_pos, here_snoc. cbn [send]. rewrite !pnt_X, !pnt_Y. rewrite <- !app_assoc. cbn [app]. f_equal. rewrite (pnt_eta _ FH) at 1.
    unfold pnt. repeat (f_equal; try lra).
  - unfold drawCommand; cbn [String.eqb Ascii.eqb Bool.eqb]. rewrite HC. cbn [need]. assert (EP : Prop_C39.pen d = here d) by (rewrite <- Prop_C39.pen_CurrentPosition; apply here_pos).
    rewrite Prop_C52.C52_shape by (rewrite EP; exact FH). rewrite EP. split; [reflexivity|]. apply FA. unfold Prop_C52.circleAt. repeat constructor; auto.
  - destruct HC as (H1 & H2 & H3 & H4). unfold drawCommand; cbn [String.eqb Ascii.eqb Bool.eqb]. rewrite H1. cbn [need]. apply svg_traces; assumption.
Qed.

(** The commands draw exactly their strokes, one after the other, from the cursor on.  For round corners see C54, for svg shapes drawn up to a
    point C63. *)
Theorem C70_draws co cs is x y : Forall2 says cs is ->
  let p := fold_left traces is [Move (pnt 0 0) (pnt x y)] in DrawRender co RTrig [] cs (pnt x y) = Ok (p, here p).
Proof.
  intros H p. unfold DrawRender. assert (E0 : MoveTo NewDraw (pnt x y) = [Move (pnt 0 0) (pnt x y)]) by (unfold MoveTo, NewDraw, CurrentPosition; cbn [app]; do 2 f_equal; apply NewPoint_fin).
  assert (G : forall d, d <> [] -> Forall finiteSeg d -> drawCommands co RTrig cs d = Ok (fold_left traces is d) /\ fold_left traces is d <> []).
  { clear p E0. induction H as [|[name a] i cs is HS _ IH]; intros d ND FD; [split; [reflexivity|exact ND]|]. cbn [drawCommands fold_left]. destruct (command_traces co name a i d ND FD HS) as [E F]. rewrite E. cbn [bind]. apply IH; [apply traces_ne; exact ND|exact F]. }
  rewrite E0. destruct (G [Move (pnt 0 0) (pnt x y)]) as [-> NP]; [discriminate|repeat constructor|]. fold p. fold p in NP. cbn [bind]. unfold HandleTransforms. cbn [applyTransforms bind]. unfold PathCursor. rewrite Tail_rev.
  unfold here. assert (NR : rev p <> []) by (intros Z; apply NP; rewrite <- (rev_involutive p), Z; reflexivity). destruct (rev p) as [|g r]; [congruence|]. reflexivity.
Qed.

(** ** svg text drawn up to a point *)
(** the attributes of the four commands: a shape, a point, and whether the shape runs backwards (it does not unless it is said) *)
Definition asked (a : attrs RNum) (p : path RNum) (x y : R) (back : bool) : Prop :=
  (exists t, at_text a "svg" = Some t /\ ParsePathFromSvg t = Ok p) /\ at_point a "to" = Some (pnt x y) /\ (at_bool a "reverse" = Some back \/ at_bool a "reverse" = None /\ back = false).
Definition target (rel : bool) (pen : Pt RNum) (x y : R) : Pt RNum := if rel then pnt (X pen + x) (Y pen + y) else pnt x y.
Lemma abs_target (d : path RNum) pen x y : ends d pen -> finitePt pen -> ToAbsPosition d (pnt x y) = target true pen x y.
Proof.
  intros (i & g & -> & <-) F. unfold ToAbsPosition. rewrite here_pos, here_snoc, (px_fin _ F), (py_fin _ F). cbn [px py pnt]. fin. apply NewPoint_fin.
Qed.
Definition connectName (rel : bool) : string := if rel then "rel_svg_connect_to" else "svg_connect_to".
Definition scaleName (rel : bool) : string := if rel then "rel_svg_scale_to" else "svg_scale_to".
Lemma connect_command co tr (d : path RNum) a p x y back rel pen : asked a p x y back -> ends d pen -> finitePt pen ->
  drawCommand co tr (connectName rel) a d = svgRotateScaleTo co tr d p (target rel pen x y) back /\ drawCommand co tr (scaleName rel) a d = svgScaleTo co d p (target rel pen x y) back.
Proof.
  intros ((t & Et & Ep) & Eq & HB) HE HF. assert (B : match at_bool a "reverse" with Some b => b | None => false end = back) by (destruct HB as [-> |[-> ->]]; reflexivity).
  destruct rel; unfold connectName, scaleName, drawCommand; cbn [String.eqb Ascii.eqb Bool.eqb]; rewrite Et, Eq; cbn [need]; rewrite Ep, B; cbn [bind]; [rewrite (abs_target d pen) by assumption|]; split; reflexivity.
Qed.
Lemma target_finite rel pen x y : finitePt (target rel pen x y). Proof. destruct rel; apply finitePt_pnt. Qed.
(** The connecting commands turn and scale the shape, or the shape run backwards, so that it leads from the pen to the point, which is counted from the pen if the command is relative. *)
Theorem C70_svg_connect bm fuel (d p : path RNum) a x y rel o s r i g pen : asked a p x y false \/ asked a p x y true ->
  p = Move o s :: r -> p = i ++ [g] -> visible g -> Forall tame p -> connected p -> Prop_C50.firstPoint p s -> s <> send g -> ends d pen -> finitePt pen ->
  exists q k l u v, drawCommand (BezierOps RTrig bm fuel) RTrig (connectName rel) a d = Ok q /\
    (asked a p x y false -> drawn q = drawn d ++ map (fun h => TransformPoints h (Prop_C50.similar k l u v)) (drawn p) /\ Prop_C50.similar k l u v s = pen /\ Prop_C50.similar k l u v (send g) = target rel pen x y) /\
    (asked a p x y true -> drawn q = drawn d ++ map (fun h => TransformPoints h (Prop_C50.similar k l u v)) (rev (map flip (drawn p))) /\ Prop_C50.similar k l u v (send g) = pen /\ Prop_C50.similar k l u v s = target rel pen x y).
Proof.
  assert (EX : asked a p x y false -> asked a p x y true -> False) by (intros (_ & _ & A) (_ & _ & B); destruct A as [A|[A _]], B as [B|[B C]]; congruence).
  intros HA Es Eg V HT HC H1 NE HE HF. pose proof (target_finite rel pen x y) as FT. destruct HA as [HA|HA]; destruct (connect_command (BezierOps RTrig bm fuel) RTrig d a p x y _ rel pen HA HE HF) as [-> _].
  - destruct (Prop_C63.C63_connect bm fuel d p s (send g) (send g) pen (target rel pen x y)) as (q & k & l & u & v & E & D & S1 & S2 & _); try assumption.
    + exists (drawn i), g. split; [apply (Prop_C63.drawn_visible p i g Eg V)|reflexivity].
    + exists i, g. auto.
    + exists q, k, l, u, v. split; [exact E|]. split; [auto|]. intros HB. destruct (EX HA HB).
  - destruct (Prop_C63.C63_connect_reversed bm fuel d p o s r i g pen (target rel pen x y)) as (q & k & l & u & v & E & D & S1 & S2 & _); try assumption.
    exists q, k, l, u, v. split; [exact E|]. split; [|auto]. intros HB. destruct (EX HB HA).
Qed.
(** The scaling commands stretch it along the axes, if it runs the way it is asked to run (otherwise see C63). *)
Theorem C70_svg_scale bm fuel tr (d p : path RNum) a x y rel s r i g pen : asked a p x y false \/ asked a p x y true ->
  p = Move s s :: r -> p = i ++ [g] -> visible g -> Forall tame p -> connected p -> Prop_C50.firstPoint p s -> ends d pen -> finitePt pen ->
  (forall b, asked a p x y b -> let f z := if b : bool then - z else z in let to := target rel pen x y in
     Prop_C63.sameWay (X to - X pen) (f (X (send g) - X s)) /\ Prop_C63.sameWay (Y to - Y pen) (f (Y (send g) - Y s))) -> pen <> target rel pen x y ->
  exists q k l u v, drawCommand (BezierOps tr bm fuel) tr (scaleName rel) a d = Ok q /\ 0 < k /\ 0 < l /\ ends q (target rel pen x y) /\
    (asked a p x y false -> drawn q = drawn d ++ map (fun h => TransformPoints h (Prop_C63.stretch k l u v)) (drawn p) /\ Prop_C63.stretch k l u v s = pen /\ Prop_C63.stretch k l u v (send g) = target rel pen x y) /\
    (asked a p x y true -> drawn q = drawn d ++ map (fun h => TransformPoints h (Prop_C63.stretch k l u v)) (rev (map flip (drawn p))) /\ Prop_C63.stretch k l u v (send g) = pen /\ Prop_C63.stretch k l u v s = target rel pen x y).
Proof.
  assert (EX : asked a p x y false -> asked a p x y true -> False) by (intros (_ & _ & A) (_ & _ & B); destruct A as [A|[A _]], B as [B|[B C]]; congruence).
  intros HA Es Eg V HT HC H1 HE HF HS NE. pose proof (target_finite rel pen x y) as FT. destruct HA as [HA|HA]; destruct (connect_command (BezierOps tr bm fuel) tr d a p x y _ rel pen HA HE HF) as [_ ->]; destruct (HS _ HA) as [SX SY]; cbv zeta in SX, SY.
  - destruct (Prop_C63.C63_scale_partial bm fuel tr d p s s r (send g) pen (target rel pen x y)) as (q & k & l & u & v & E & K1 & K2 & D & S1 & S2 & Z); try assumption.
    + exists (drawn i), g. split; [apply (Prop_C63.drawn_visible p i g Eg V)|reflexivity].
    + exists i, g. auto.
    + exists q, k, l, u, v. split; [exact E|]. split; [exact K1|]. split; [exact K2|]. split; [exact Z|]. split; [auto|]. intros HB. destruct (EX HA HB).
  - destruct (Prop_C63.C63_scale_reversed_partial bm fuel tr d p s r i g pen (target rel pen x y)) as (q & k & l & u & v & E & K1 & K2 & D & S1 & S2 & Z); try assumption.
    + replace (X s - X (send g)) with (- (X (send g) - X s)) by ring. exact SX.
    + replace (Y s - Y (send g)) with (- (Y (send g) - Y s)) by ring. exact SY.
    + exists q, k, l, u, v. split; [exact E|]. split; [exact K1|]. split; [exact K2|]. split; [exact Z|]. split; [|auto]. intros HB. destruct (EX HB HA).
Qed.
Print Assumptions C70_svg_connect.
Print Assumptions C70_svg_scale.

(** ** examples *)
Definition look {A} (l : list (string * A)) (k : string) : option A := option_map snd (find (fun e => String.eqb (fst e) k) l).
Definition atr {N : Num} (ps : list (string * Pt N)) (fs : list (string * T N)) (ss : list (string * string)) : attrs N := mkAttrs (look ps) (look fs) (look ss) (fun _ => None).

Definition atrR := @atr RNum.
Definition atrF := @atr FNum.
(** a line, the path of [C58_reads_example] from svg text, a line relative to its end, a line at an angle and a rectangle *)
Definition cmds70 : list (string * attrs RNum) :=
  [("rel_line", atrR [("to", pnt 3 4)] [] []); ("svg", atrR [] [] [("svg", text ex58 "")]); ("rel_smooth_curve", atrR [("to", pnt 1 0); ("ctrl_end", pnt 1 1)] [] []);
   ("line_by_angle", atrR [] [("length", Fin 2); ("angle", Fin 90)] []); ("rectangle", atrR [] [("width", Fin 2); ("height", Fin 1)] [])]%string.
Definition strokes70 : list instr := [ILine true 3 4; ISvg ex58 ""; ISmooth true 1 1 1 0; IAngle 2 90; IRect 2 1].
Example C70_draws_example co : Forall2 says cmds70 strokes70 /\
  exists p, DrawRender co RTrig [] cmds70 (pnt 10 20) = Ok (p, pnt 11 5) /\ List.length p = 13%nat /\ firstn 2 p = [Move (pnt 0 0) (pnt 10 20); Line (pnt 10 20) (pnt 13 24)] /\ nth 2 p (Move (pnt 0 0) (pnt 0 0)) = Move (pnt 13 24) (pnt 1.5 2).
Proof.
  assert (S : Forall2 says cmds70 strokes70).
  { unfold cmds70, strokes70. repeat (apply Forall2_cons || apply Forall2_nil); (split; [reflexivity|]); cbn [snd carries]; try reflexivity; try (split; reflexivity). split; [reflexivity|]. split; [exact ex58_ok|]. split; [reflexivity|]. unfold ex58. repeat eexists. }
  split; [exact S|]. pose proof (C70_draws co _ _ 10 20 S) as D. cbn zeta in D. eexists. split; [rewrite D; f_equal; f_equal|].
  - destruct (C58_reads_example) as (_ & _ & p & E & L & _ & H). change "M1.5 2l -3,.25C0 0 1 1,2 2s.5 1 3 -4Z m 5 5"%string with (text ex58 "") in E. rewrite (C58_reads_partial ex58 "" ex58_ok eq_refl) in E. apply (f_equal (fun r => match r with Ok p => p | _ => [] end)) in E. cbv beta iota in E.
    unfold strokes70. cbn [fold_left]. set (q := traces _ (ILine true 3 4)).
    assert (HQ : here (traces q (ISvg ex58 "")) = pnt 10 3).
    { unfold traces. rewrite E. destruct p as [|g p]; [discriminate|]. assert (exists a, g = Move a (send g)) as (a & ->) by (unfold ex58, ds in E; cbn [fold_left map command draws app] in E; injection E as <- _; eexists; reflexivity).
      destruct p as [|h p]; [discriminate|]. rewrite <- H. unfold here. cbn [send]. rewrite rev_app_distr. cbn [rev]. destruct (rev p); reflexivity. }
    set (q1 := traces q (ISvg ex58 "")) in *. unfold traces at 3. rewrite HQ. unfold spot. rewrite HQ, !pnt_X, !pnt_Y. set (q2 := q1 ++ _). unfold traces at 2. assert (H2 : here q2 = pnt (10 + 1) (3 + 0)) by apply here_snoc. rewrite H2, !pnt_X, !pnt_Y. set (q3 := q2 ++ _).
    assert (H3 : here q3 = pnt 11 5).
    { unfold q3. rewrite here_snoc. cbn [send]. replace (90 * PI / 180) with (PI / 2) by field. rewrite cos_PI2, sin_PI2. unfold pnt. f_equal; f_equal; lra. }
    unfold traces. rewrite H3, !pnt_X, !pnt_Y. change (here (q3 ++ [Line (pnt 11 5) (pnt (11 + 2) 5); Line (pnt (11 + 2) 5) (pnt (11 + 2) (5 + 1)); Line (pnt (11 + 2) (5 + 1)) (pnt 11 (5 + 1))] ++ [Line (pnt 11 (5 + 1)) (pnt 11 5)]) = pnt 11 5). rewrite app_assoc. apply here_snoc.
  - split; [reflexivity|]. unfold strokes70, ex58, ds. cbn [fold_left map command draws app traces firstn nth here rev send spot]. rewrite ?pnt_X, ?pnt_Y. unfold at_. split; [|]; repeat f_equal; unfold pnt, dec_val, frac; cbn; repeat f_equal; lra.
Qed.

(** the same commands one at a time, over floats: a line, then two more pieces *)
Definition line70 : string * attrs FNum := ("rel_line", atrF [("to", pt 3 4)] [] [])%string.
Definition more70 : list (string * attrs FNum) := [("move", atrF [("to", pt 5 5)] [] []); ("rectangle", atrF [] [("width", fz 2); ("height", fz 1)] [])]%string.
Example C70_connected_example : exists q q' c, DrawRender noCurves noTrig [] [line70] (pt 1 1) = Ok (q, pt 4 5) /\ DrawRender noCurves noTrig [] ([line70] ++ more70) (pt 1 1) = Ok (q', c) /\
  dpath q = dpath [mv 0 0 1 1; ln 1 1 4 5] /\ dpath q' = dpath [mv 0 0 1 1; ln 1 1 4 5; mv 4 5 5 5; ln 5 5 7 5; ln 7 5 7 6; ln 7 6 5 6; ln 5 6 5 5].
Proof. eexists. eexists. eexists. split; [reflexivity|]. split; [reflexivity|]. split; vm_compute; reflexivity. Qed.
Example C70_errors_example : (exists q, drawCommands noCurves noTrig [line70] (MoveTo NewDraw (pt 1 1)) = Ok q) /\
  (forall ks, In ("rectangle"%string, ks) needs -> Exists (absent (atrF [] [("width"%string, fz 2)] [])) ks) /\
  DrawRender noCurves noTrig [] ([line70] ++ ("rectangle"%string, atrF [] [("width"%string, fz 2)] []) :: more70) (pt 1 1) = Err /\
  (forall ks, ~ In ("triangle"%string, ks) needs).
Proof.
  split; [eexists; reflexivity|]. split; [intros ks H; cbn [In needs] in H; repeat destruct H as [H|H]; try discriminate; try contradiction; injection H as <-; right; left; reflexivity|].
  split; [reflexivity|]. intros ks H. cbn [In needs] in H. repeat destruct H as [H|H]; try discriminate; contradiction.
Qed.
Example C70_total_example : forall name a, In (name, a) (line70 :: more70) -> exists ks, In (name, ks) needs /\ Forall (fun k => fst k <> ATextKind /\ ~ absent a k) ks.
Proof.
  intros name a [H|[H|[H|[]]]]; injection H as <- <-; eexists; (split; [cbn [In needs]; repeat first [left; reflexivity|right]|]); repeat constructor; discriminate.
Qed.

(** a corner drawn as text from (1,1): scaled to (3,4) from there and run backwards, and connected to (1,7) *)
Definition ex70 : list spaced :=
  [ Spaced ""%string (CMove false (ds [0]) (ds [0])) [""; " "]%string; Spaced " "%string (CLine false (ds [1]) (ds [0])) [""; " "]%string; Spaced " "%string (CLine false (ds [1]) (ds [1])) [""; " "]%string ]%nat.
Lemma ex70_ok : spacing_ok false ex70.
Proof.
  unfold ex70. cbn [spacing_ok before command gaps numbers]. unfold gaps_ok, blank, dec_ok, frac, ds. cbn [d_int d_frac d_neg List.length].
  repeat match goal with |- _ /\ _ => split | |- Forall _ _ => constructor | |- _ -> _ => intro end; try reflexivity; try discriminate; try exact I; try lia; try (left; discriminate); try (right; discriminate).
Qed.
Definition corner70 : path RNum := [Move (pnt 0 0) (pnt 0 0); Line (pnt 0 0) (pnt 1 0); Line (pnt 1 0) (pnt 1 1)].
Lemma ex70_text : ParsePathFromSvg "M0 0 L1 0 L1 1"%string = Ok corner70.
Proof.
  change "M0 0 L1 0 L1 1"%string with (text ex70 ""%string). rewrite (C58_reads_partial ex70 ""%string ex70_ok eq_refl). f_equal. unfold ex70, ds, corner70. cbn [fold_left map command draws app at_ here rev send]. unfold pnt, dec_val, frac. cbn. repeat (f_equal; try lra).
Qed.
Definition svg70 (x y : R) (back : option bool) : attrs RNum := mkAttrs (look [("to"%string, pnt x y)]) (look []) (look [("svg", "M0 0 L1 0 L1 1")%string]) (look match back with Some b => [("reverse"%string, b)] | None => [] end).
Example C70_svg_connect_example bm fuel : exists q, drawCommand (BezierOps RTrig bm fuel) RTrig "svg_connect_to"%string (svg70 (-1) 3 None) [Move (pnt 0 0) (pnt 1 1)] = Ok q /\
  drawn q = [Line (pnt 1 1) (pnt 1 3); Line (pnt 1 3) (pnt (-1) 3)].
Proof.
  assert (A : asked (svg70 (-1) 3 None) corner70 (-1) 3 false) by (split; [eexists; split; [reflexivity|exact ex70_text]|]; split; [reflexivity|right; split; reflexivity]).
  destruct (C70_svg_connect bm fuel [Move (pnt 0 0) (pnt 1 1)] corner70 _ (-1) 3 false (pnt 0 0) (pnt 0 0) [Line (pnt 0 0) (pnt 1 0); Line (pnt 1 0) (pnt 1 1)] [Move (pnt 0 0) (pnt 0 0); Line (pnt 0 0) (pnt 1 0)] (Line (pnt 1 0) (pnt 1 1)) (pnt 1 1) (or_introl A)) as (q & k & l & u & v & E & H & _); try reflexivity.
  - repeat constructor.
  - repeat constructor.
  - eexists _, _. split; reflexivity.
  - cbn [send]. intros Z. injection Z. lra.
  - exists [], (Move (pnt 0 0) (pnt 1 1)). split; reflexivity.
  - exists q. split; [exact E|]. destruct (H A) as (D & S1 & S2). cbn [send] in S2. unfold Prop_C50.similar, target in *. rewrite !pnt_X, !pnt_Y in *. injection S1 as A1 A2. injection S2 as B1 B2. assert (k = 0) by lra. assert (l = 2) by lra. assert (u = 1) by lra. assert (v = 1) by lra. subst.
    rewrite D. cbn [corner70 drawn map app TransformPoints]. rewrite !pnt_X, !pnt_Y. unfold pnt. repeat (f_equal; try lra).
Qed.
Example C70_svg_scale_example bm fuel tr : exists q, drawCommand (BezierOps tr bm fuel) tr "rel_svg_scale_to"%string (svg70 (-2) (-4) (Some true)) [Move (pnt 0 0) (pnt 1 1)] = Ok q /\
  drawn q = [Line (pnt 1 1) (pnt 1 (-3)); Line (pnt 1 (-3)) (pnt (-1) (-3))].
Proof.
  assert (A : asked (svg70 (-2) (-4) (Some true)) corner70 (-2) (-4) true) by (split; [eexists; split; [reflexivity|exact ex70_text]|]; split; [reflexivity|left; reflexivity]).
  destruct (C70_svg_scale bm fuel tr [Move (pnt 0 0) (pnt 1 1)] corner70 _ (-2) (-4) true (pnt 0 0) [Line (pnt 0 0) (pnt 1 0); Line (pnt 1 0) (pnt 1 1)] [Move (pnt 0 0) (pnt 0 0); Line (pnt 0 0) (pnt 1 0)] (Line (pnt 1 0) (pnt 1 1)) (pnt 1 1) (or_intror A)) as (q & k & l & u & v & E & _ & _ & _ & _ & H); try reflexivity.
  - repeat constructor.
  - repeat constructor.
  - eexists _, _. split; reflexivity.
  - exists [], (Move (pnt 0 0) (pnt 1 1)). split; reflexivity.
  - intros b B. assert (b = true) as -> by (destruct B as (_ & _ & [B|[B _]]); [cbn in B; congruence|discriminate]). cbn [send target]. rewrite !pnt_X, !pnt_Y. split; left; lra.
  - cbn [target]. rewrite !pnt_X. intros Z. injection Z. lra.
  - exists q. split; [exact E|]. destruct (H A) as (D & S1 & S2). cbn [send] in S1. unfold Prop_C63.stretch, target in *. rewrite !pnt_X, !pnt_Y in *. injection S1 as A1 A2. injection S2 as B1 B2. assert (k = 2) by lra. assert (l = 4) by lra. assert (u = -1) by lra. assert (v = -3) by lra. subst.
    rewrite D. cbn [corner70 drawn map rev flip app TransformPoints]. rewrite !pnt_X, !pnt_Y. unfold pnt. repeat (f_equal; try lra).
Qed.
