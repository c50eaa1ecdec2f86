(** C68: a group draws its children one after the other, each from where the one before ended. *)
From Coq Require Import List ZArith Bool Reals Lra Lia.
From Verif Require Import Num FloatNum RealNum RealTrig PathModel DrawModel SegOps TransformsModel Bezier GeomTransforms PathSpec PathProofs GeomSpec GeomProofs Witness Components CompProofs Prop_C64 Prop_C67.
Import ListNotations.
Local Open Scope R_scope.

(** where a path ends *)
Definition endsAt {N : Num} (p : path N) (c : Pt N) : Prop := exists i g, p = i ++ [g] /\ send g = c.

Lemma inTurn_nonempty {N : Num} c (cs : list (Pt N -> res (path N))) ps : inTurn c cs ps -> Forall (fun q => q <> []) ps.
Proof. induction 1 as [|c child p i g cs l _ E _ IH]; constructor; [|exact IH]. rewrite E. destruct i; discriminate. Qed.

(** The children are drawn in order, nothing is lost or added, and the component after the group starts where the last child ended. *)
Theorem C68_group cs cursor ps : inTurn cursor cs ps -> ps <> [] -> Forall (Forall tame) ps ->
  exists q c, Group [] cs cursor = Ok (q, c) /\ drawn q = concat (map drawn ps) /\ endsAt q c /\ endsAt (last ps []) c.
Proof.
  intros HC HN HT. destruct ps as [|p0 ps]; [congruence|]. pose proof (inTurn_nonempty _ _ _ HC) as HE.
  destruct (JoinPaths_spec p0 ps HE HT) as (j & EJ & DJ & TJ & (u & Eu) & (v & Ev)).
  assert (NL : last (p0 :: ps) [] <> []).
  { rewrite Forall_forall in HE. apply HE. destruct (@exists_last _ (p0 :: ps)) as (i & z & Ez); [discriminate|]. rewrite Ez, last_last. apply in_or_app. right. left. reflexivity. }
  destruct (snoc_of _ NL) as (i & g & Eg).
  assert (EL : endsAt j (send g)) by (exists (v ++ i), g; split; [rewrite Ev, Eg, app_assoc; reflexivity|reflexivity]).
  exists j, (send g). split; [|split; [exact DJ|split; [exact EL|exists i, g; auto]]].
  unfold Group. apply renderChain_inTurn in HC. rewrite HC. cbn [bind]. rewrite EJ. cbn [bind HandleTransforms applyTransforms].
  destruct EL as (i' & g' & E' & S'). unfold PathCursor. rewrite E', Tail_snoc. cbn [bind]. rewrite S'. reflexivity.
Qed.
Print Assumptions C68_group.

(** With transforms: they are applied, first to last, to what the children draw, and the cursor goes to the end of the result. *)
Inductive inSuccession {N : Num} : list (path N -> res (path N)) -> path N -> path N -> Prop :=
| succ_nil p : inSuccession [] p p
| succ_cons t ts p q r : t p = Ok q -> inSuccession ts q r -> inSuccession (t :: ts) p r.
Theorem C68_transformed ts cs cursor ps q c : inTurn cursor cs ps -> ps <> [] -> Forall (Forall tame) ps ->
  Group ts cs cursor = Ok (q, c) <-> endsAt q c /\ exists j cj, Group [] cs cursor = Ok (j, cj) /\ inSuccession ts j q.
Proof.
  intros HC HN HT. destruct (C68_group cs cursor ps HC HN HT) as (j & cj & EJ & _ & (i & g & E & S) & _).
  assert (EG : forall ts, Group ts cs cursor = HandleTransforms ts j).
  { intros ts'. unfold Group in *. destruct (renderChain cs cursor) as [l| | |]; try discriminate. cbn [bind] in *. destruct (JoinPaths l) as [j'| | |]; try discriminate. cbn [bind] in *.
    unfold HandleTransforms in EJ. cbn [applyTransforms bind] in EJ. destruct (PathCursor j') as [c'| | |]; try discriminate. injection EJ as <- _. reflexivity. }
  assert (EA : forall p r, applyTransforms ts p = Ok r <-> inSuccession ts p r).
  { clear. induction ts as [|t ts IH]; intros p r; cbn [applyTransforms].
    - split; [intros [= <-]; constructor|]. inversion 1. reflexivity.
    - split.
      + destruct (t p) as [q| | |] eqn:Et; try discriminate. cbn [bind]. intros H. econstructor; [exact Et|]. apply IH. exact H.
      + inversion 1 as [|? ? ? q' ? Et H']; subst. rewrite Et. cbn [bind]. apply IH. exact H'. }
  rewrite EG. split.
  - unfold HandleTransforms. destruct (applyTransforms ts j) as [r| | |] eqn:Er; try discriminate. cbn [bind]. unfold PathCursor. destruct (Tail r) as [z|] eqn:Ez; try discriminate. cbn [bind].
    intros [= <- <-]. destruct r as [|h r]; [discriminate|]. destruct (@exists_last _ (h :: r)) as (i' & z' & Ez'); [discriminate|]. rewrite Ez', Tail_snoc in Ez. injection Ez as <-.
    split; [exists i', z'; auto|]. exists j, cj. split; [exact EJ|]. apply EA. exact Er.
  - intros ((i' & z' & Ez' & Sz') & j' & cj' & EJ' & HS). rewrite EJ in EJ'. injection EJ' as <- _. apply EA in HS. unfold HandleTransforms. rewrite HS. cbn [bind]. unfold PathCursor. rewrite Ez', Tail_snoc. cbn [bind]. rewrite Sz'. reflexivity.
Qed.

(** The first child that cannot be drawn is what the group reports; the children after it do not matter. *)
Theorem C68_error {N : Num} ts cs child rest (cursor : Pt N) ps c :
  inTurn cursor cs ps -> c = match Tail (last ps []) with Some g => send g | None => cursor end -> child c = Err -> Group ts (cs ++ child :: rest) cursor = Err.
Proof.
  intros HC HL HX. unfold Group. enough (E : renderChain (cs ++ child :: rest) cursor = Err) by (rewrite E; reflexivity).
  revert HL. induction HC as [c0|c0 ch p i g cs ps EC EP HC IH]; intros HL; cbn [app renderChain].
  - cbn in HL. rewrite <- HL, HX. reflexivity.
  - rewrite EC. cbn [bind]. unfold PathCursor. rewrite EP, Tail_snoc. cbn [bind]. rewrite IH; [reflexivity|]. rewrite HL.
    remember (send g) as e eqn:Ee. destruct HC as [c1|c1 ch1 p1 i1 g1 cs1 ps1 EC1 EP1 HC1]; [cbn [last]; rewrite EP, Tail_snoc, Ee; reflexivity|].
    change (last (p :: p1 :: ps1) []) with (last (p1 :: ps1) []). destruct (Tail (last (p1 :: ps1) [])) as [z|] eqn:Ez; [reflexivity|].
    exfalso. assert (HN : Forall (fun q => q <> []) (p1 :: ps1)) by (apply (inTurn_nonempty c1 (ch1 :: cs1)); econstructor; eauto).
    destruct (@exists_last _ (p1 :: ps1)) as (a & z & Ea); [discriminate|]. rewrite Ea, last_last in Ez. rewrite Ea in HN. apply Forall_app in HN. destruct HN as [_ HN]. inversion HN as [|? ? NZ _]; subst.
    destruct z as [|h z]; [congruence|]. destruct (@exists_last _ (h :: z)) as (b & y & Eb); [discriminate|]. rewrite Eb, Tail_snoc in Ez. discriminate.
Qed.

(** Finding: a group without children, or with a child that draws nothing, stops the program. *)
Theorem C68_empty_refuted {N : Num} ts (cursor : Pt N) : @Group N ts [] cursor = Panic.
Proof. reflexivity. Qed.
Theorem C68_blank_refuted {N : Num} ts rest (cursor : Pt N) : Group ts ((fun _ => Ok []) :: rest) cursor = Panic.
Proof. reflexivity. Qed.

(** *** examples *)
Example C68_example : bind (Group [] [right 4; down 3] (pt 2 5)) (fun '(q, c) => Ok (q ++ [Line c c])) = Ok [mv 0 0 2 5; ln 2 5 6 5; mv 0 0 6 5; ln 6 5 6 8; ln 6 8 6 8].
Proof. byr. Qed.
Example C68_hypotheses : exists ps, inTurn (pnt 2 5) [strokeR 4 0; strokeR 0 3] ps /\ ps <> [] /\ Forall (Forall tame) ps.
Proof.
  eexists. split; [|split; [|]].
  - eapply turn_cons; [reflexivity|exact (eq_refl (([Move (pnt 0 0) (pnt 2 5)] ++ [Line (pnt 2 5) (pnt (2 + 4) (5 + 0))])))|]. eapply turn_cons; [reflexivity| |constructor]. exact (eq_refl ([Move (pnt 0 0) (pnt (2 + 4) (5 + 0))] ++ [_])).
  - discriminate.
  - repeat constructor.
Qed.
Example C68_error_hypotheses : Group [] [strokeR 4 0; fun c => if Req_EM_T (X c) 6 then Err else Ok []; strokeR 1 1] (pnt 2 5) = Err.
Proof.
  apply (C68_error [] [strokeR 4 0] _ [strokeR 1 1] (pnt 2 5) [[Move (pnt 0 0) (pnt 2 5); Line (pnt 2 5) (pnt (2 + 4) (5 + 0))]] (pnt (2 + 4) (5 + 0))).
  - eapply turn_cons; [reflexivity|exact (eq_refl ([Move (pnt 0 0) (pnt 2 5)] ++ [Line (pnt 2 5) (pnt (2 + 4) (5 + 0))]))|constructor].
  - reflexivity.
  - destruct (Req_EM_T _ 6) as [_|H]; [reflexivity|]. exfalso. apply H. rewrite pnt_X. lra.
Qed.
