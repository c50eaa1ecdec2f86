(** What [reduce] makes of a curve, in exact arithmetic: sections that follow one another and make up the curve. *)
From Coq Require Import List ZArith Bool Reals Lra Lia Arith.
From Verif Require Import Num RealNum PathModel SegOps Bezier PathSpec GeomSpec BezierProofs Prop_C33.
Import ListNotations.
Local Open Scope R_scope.

(** [d] is the part of the curve [c] between the parameters [a] and [b] *)
Definition section (c d : crv RNum) (a b : R) : Prop :=
  finiteCrv d /\ (smallCrv c -> smallCrv d) /\ forall u, curveX d u = curveX c (a + (b - a) * u) /\ curveY d u = curveY c (a + (b - a) * u).

Lemma section_refl c : finiteCrv c -> section c c 0 1.
Proof. intros F. split; [exact F|]. split; [auto|]. intros u. replace (0 + (1 - 0) * u) with u by ring. auto. Qed.
Lemma section_trans c d e a b a' b' : section c d a b -> section d e a' b' -> section c e (a + (b - a) * a') (a + (b - a) * b').
Proof.
  intros (F1 & S1 & H1) (F2 & S2 & H2). split; [exact F2|]. split; [auto|]. intros u. destruct (H2 u) as [-> ->]. destruct (H1 (a' + (b' - a') * u)) as [-> ->].
  replace (a + (b - a) * (a' + (b' - a') * u)) with (a + (b - a) * a' + (a + (b - a) * b' - (a + (b - a) * a')) * u) by ring. auto.
Qed.
Lemma convex_small x y t M : 0 <= t <= 1 -> Rabs x < M -> Rabs y < M -> Rabs (x + t * (y - x)) < M.
Proof. intros Ht Hx Hy. apply Rabs_def2 in Hx, Hy. destruct (Rle_lt_dec t (1 / 2)); apply Rabs_def1; nra. Qed.
Lemma lerp_small p q t : 0 <= t <= 1 -> finitePt p -> finitePt q -> small p -> small q -> small (lerp (Fin t : T RNum) p q).
Proof. intros Ht Fp Fq [A1 A2] [B1 B2]. rewrite lerp_fin by assumption. split; rewrite ?pnt_X, ?pnt_Y; apply convex_small; assumption. Qed.
Lemma lerp_finite p q t : finitePt p -> finitePt q -> finitePt (lerp (Fin t : T RNum) p q).
Proof. intros Fp Fq. rewrite lerp_fin by assumption. reflexivity. Qed.
Lemma hull_section c t : finiteCrv c -> 0 <= t <= 1 -> section c (fst (hullSplit c (Fin t : T RNum))) 0 t /\ section c (snd (hullSplit c (Fin t : T RNum))) t 1.
Proof.
  intros F Ht. pose proof (hullSplit_spec c t F) as G. assert (S : smallCrv c -> smallCrv (fst (hullSplit c (Fin t : T RNum))) /\ smallCrv (snd (hullSplit c (Fin t : T RNum)))).
  { intros (S1 & S2 & S3 & S4). destruct F as (F1 & F2 & F3 & F4). unfold hullSplit. cbv zeta. cbn [fst snd]. unfold smallCrv. cbn [c_s c_cs c_e c_ce].
    assert (forall p q, finitePt p -> finitePt q -> finitePt (lerp (Fin t : T RNum) p q)) by (intros; apply lerp_finite; assumption).
    assert (forall p q, finitePt p -> finitePt q -> small p -> small q -> small (lerp (Fin t : T RNum) p q)) by (intros; apply lerp_small; assumption). repeat (match goal with |- _ /\ (_ /\ _) => split | |- (_ /\ _ /\ _) /\ _ => split | |- small _ /\ small _ => split end); repeat first [assumption | apply H | apply H0]. }
  destruct (hullSplit c (Fin t : T RNum)) as [l r]. cbn [fst snd] in *. destruct G as (Fl & Fr & Gl & Gr). split; split; try assumption; split; try (intros Hs; apply S, Hs).
  - intros u. replace (0 + (t - 0) * u) with (t * u) by ring. apply Gl.
  - intros u. apply Gr.
Qed.
(** a piece of [c] with its parameters *)
Definition piece (c : crv RNum) (s : @cseg RNum) (a b : R) : Prop := st1 s = Fin a /\ st2 s = Fin b /\ 0 <= a < b /\ b <= 1 /\ section c (cv s) a b.
Lemma mapRange01 (t a b : R) : @mapRange RNum (Fin t) (Fin 0) (Fin 1) (Fin a) (Fin b) = Fin (a + (b - a) * t).
Proof. unfold mapRange. fin. rewrite fdiv by lra. fin. f_equal. field. Qed.
Lemma splitAt_piece c s a b t : piece c s a b -> 0 < t < 1 -> piece c (fst (splitAtS s (Fin t : T RNum))) a (a + (b - a) * t) /\ piece c (snd (splitAtS s (Fin t : T RNum))) (a + (b - a) * t) b.
Proof.
  intros (E1 & E2 & Hab & Hb & HS) Ht. unfold splitAtS. fin. destruct (Reqb_spec t 0); [lra|]. unfold hullSplitS. pose proof (hull_section (cv s) t (proj1 HS)) as G. destruct (hullSplit (cv s) (Fin t : T RNum)) as [l r]. cbn [fst snd] in *. destruct G as [G1 G2]; [lra|].
  rewrite E1, E2. rewrite fzero, fone, !mapRange01. pose proof (section_trans _ _ _ _ _ _ _ HS G1) as K1. pose proof (section_trans _ _ _ _ _ _ _ HS G2) as K2.
  replace (a + (b - a) * 0) with a in * by ring. replace (a + (b - a) * 1) with b in * by ring. split; refine (conj _ (conj _ (conj (conj _ _) (conj _ _)))); cbn [st1 st2 cv]; try reflexivity; try assumption; nra.
Qed.
(** the section between two parameters *)
Lemma splitSection_spec s t1 t2 : finiteCrv (cv s) -> 0 <= t1 < t2 -> t2 <= 1 -> section (cv s) (cv (fst (splitSectionS s (Fin t1 : T RNum) (Fin t2 : T RNum)))) t1 t2.
Proof.
  intros F H1 H2. unfold splitSectionS. fin. destruct (Reqb_spec t1 0) as [->|N0].
  - cbn [fst]. destruct (splitAtS_cv s t2) as [E _]; [lra|]. rewrite E. apply hull_section; [exact F|lra].
  - destruct (Reqb_spec t2 1) as [->|N1].
    + cbn [fst]. destruct (splitAtS_cv s t1) as [_ E]; [lra|]. rewrite E. apply hull_section; [exact F|lra].
    + destruct (Rltb_spec t2 0); [lra|]. assert (EM : @mapRange RNum (Fin t2) (Fin t1) (Fin 1) (Fin 0) (Fin 1) = Fin ((t2 - t1) / (1 - t1))) by (unfold mapRange; fin; rewrite fdiv by lra; fin; f_equal; field; lra). rewrite EM.
      set (u := (t2 - t1) / (1 - t1)). assert (Hu : 0 < u < 1). { unfold u. split; [apply Rdiv_lt_0_compat; lra|]. apply (Rmult_lt_reg_r (1 - t1)); [lra|]. unfold Rdiv. rewrite Rmult_assoc, Rinv_l by lra. lra. }
      destruct (hull_section (cv s) t1 F) as [_ G]; [lra|]. assert (ER : cv (snd (hullSplitS s (Fin t1 : T RNum))) = snd (hullSplit (cv s) (Fin t1 : T RNum))) by (unfold hullSplitS; destruct (hullSplit (cv s) _); reflexivity).
      destruct (splitAtS_cv (snd (hullSplitS s (Fin t1 : T RNum))) u) as [E' _]; [lra|]. rewrite E', ER. destruct (hull_section _ u (proj1 G)) as [G' _]; [lra|].
      pose proof (section_trans _ _ _ _ _ _ _ G G') as K. replace (t1 + (1 - t1) * 0) with t1 in K by ring. replace (t1 + (1 - t1) * u) with t2 in K by (unfold u; field; lra). exact K.
Qed.

Section Reduce.
Variable tr : Trig RNum.
Variable bm : BMath RNum.

(** pieces from the parameter [a] to [b], one after the other; [P] holds of each *)
Inductive covers (P : crv RNum -> Prop) (c : crv RNum) : R -> R -> list (@cseg RNum) -> Prop :=
| covers_nil a : covers P c a a []
| covers_cons a m b s r : piece c s a m -> P (cv s) -> covers P c m b r -> covers P c a b (s :: r).

Lemma covers_app P c a m b l r : covers P c a m l -> covers P c m b r -> covers P c a b (l ++ r).
Proof. induction 1; cbn; [auto|]. intros H'. econstructor; eauto. Qed.
Lemma covers_le P c a b l : covers P c a b l -> a <= b.
Proof. induction 1 as [a|a m b s r (_ & _ & H & _) _ _ IH]; lra. Qed.
Lemma covers_in P c a b l s : covers P c a b l -> In s l -> exists x y, piece c s x y /\ a <= x /\ y <= b /\ P (cv s).
Proof.
  induction 1 as [a|a m b s' r Hp HP Hc IH]; intros [].
  - subst. exists a, m. apply covers_le in Hc. split; [exact Hp|]. split; [lra|]. auto.
  - destruct (IH H) as (x & y & H1 & H2 & H3 & H4). exists x, y. destruct Hp as (_ & _ & Hp & _). split; [exact H1|]. split; [lra|]. auto.
Qed.
Lemma covers_at P c a b l t : covers P c a b l -> a <= t <= b -> l <> [] -> exists s x y, In s l /\ piece c s x y /\ x <= t <= y.
Proof.
  induction 1 as [a|a m b s r Hp HP Hc IH]; intros Ht HN; [congruence|]. destruct (Rle_lt_dec t m) as [L|G].
  - exists s, a, m. split; [left; reflexivity|]. split; [exact Hp|]. lra.
  - destruct IH as (s' & x & y & H1 & H2 & H3); [lra| |exists s', x, y; split; [right; exact H1|]; auto]. intros ->. inversion Hc; subst. lra.
Qed.

(** *** the first pass *)
Lemma dedup_in (l : list R) : forall keys x, In x (@Float64ArrayDeDup_loop RNum (map Fin keys) (map Fin l)) -> exists t, x = Fin t /\ In t l /\ ~ In t keys.
Proof.
  induction l as [|t l IH]; intros keys x; cbn [map Float64ArrayDeDup_loop]; [intros []|].
  assert (K : existsb (fun k : T RNum => @eqb RNum k (Fin t : T RNum)) (map Fin keys) = true <-> In t keys).
  { rewrite existsb_exists. split; [intros (y & Hy & E); apply in_map_iff in Hy; destruct Hy as (z & <- & Hz); apply Reqb_true in E; subst; exact Hz|intros H; exists (Fin t); split; [apply in_map, H|apply Reqb_true; reflexivity]]. }
  destruct (existsb _ _).
  - intros H. destruct (IH _ _ H) as (u & -> & H1 & H2). exists u. split; [reflexivity|]. split; [right; exact H1|exact H2].
  - intros [<-|H]; [exists t; split; [reflexivity|]; split; [left; reflexivity|]; intros C; apply K in C; discriminate|].
    change (Fin t :: map Fin keys) with (map Fin (t :: keys)) in H. destruct (IH _ _ H) as (u & -> & H1 & H2). exists u. split; [reflexivity|]. split; [right; exact H1|]. intros C. apply H2. right. exact C.
Qed.
Lemma dedup_has (l : list R) : forall keys t, In t l -> In t keys \/ In (Fin t : T RNum) (@Float64ArrayDeDup_loop RNum (map Fin keys) (map Fin l)).
Proof.
  induction l as [|u l IH]; intros keys t; [intros []|]. cbn [map Float64ArrayDeDup_loop].
  assert (K : existsb (fun k : T RNum => @eqb RNum k (Fin u : T RNum)) (map Fin keys) = true -> In u keys).
  { rewrite existsb_exists. intros (y & Hy & E); apply in_map_iff in Hy; destruct Hy as (z & <- & Hz); apply Reqb_true in E; subst; exact Hz. }
  destruct (existsb _ _).
  - intros [<-|H]; [left; auto|apply IH, H].
  - intros [<-|H]; [right; left; reflexivity|]. destruct (IH (u :: keys) t H) as [[<-|H']|H']; [right; left; reflexivity|left; exact H'|right; right; exact H'].
Qed.
Lemma dedup_nodup (l : list R) : forall keys, NoDup (@Float64ArrayDeDup_loop RNum (map Fin keys) (map Fin l)).
Proof.
  induction l as [|u l IH]; intros keys; [constructor|]. cbn [map Float64ArrayDeDup_loop]. destruct (existsb _ _); [apply IH|]. constructor; [|exact (IH (u :: keys))].
  intros H. destruct (dedup_in l (u :: keys) _ H) as (t & E & _ & N). injection E as <-. apply N. left. reflexivity.
Qed.
Lemma insertF_in (x : R) l y : In y (@insertF RNum (Fin x) (map Fin l)) <-> y = Fin x \/ In y (map Fin l).
Proof. induction l as [|z l IH]; cbn [map insertF]; [cbn; intuition|]. rewrite fltb. destruct (Rltb z x); cbn [In]; [rewrite IH|]; intuition. Qed.
(** strictly increasing *)
Inductive incr : list R -> Prop := incr_nil : incr [] | incr_cons x l : incr l -> (forall y, In y l -> x < y) -> incr (x :: l).
Lemma insertF_incr (x : R) l : incr l -> ~ In x l -> exists l', @insertF RNum (Fin x) (map Fin l) = map Fin l' /\ incr l' /\ forall y, In y l' <-> y = x \/ In y l.
Proof.
  induction 1 as [|z l Hl IH Hz]; intros HN.
  - exists [x]. split; [reflexivity|]. split; [repeat constructor; intros y []|]. cbn. intuition.
  - cbn [map insertF]. rewrite fltb. destruct (Rltb_spec z x).
    + destruct IH as (l' & E & H1 & H2); [intros C; apply HN; right; exact C|]. exists (z :: l'). cbn [map]. rewrite E. split; [reflexivity|]. split.
      * constructor; [exact H1|]. intros y Hy. apply H2 in Hy. destruct Hy as [->|Hy]; [lra|auto].
      * intros y. cbn [In]. rewrite H2. intuition.
    + exists (x :: z :: l). split; [reflexivity|]. split; [|cbn [In]; intuition]. assert (x < z) by (assert (x <> z) by (intros ->; apply HN; left; reflexivity); lra). constructor; [constructor; assumption|].
      intros y [<-|Hy]; [assumption|]. apply Hz in Hy. lra.
Qed.
Lemma sortF_incr (l : list R) : NoDup l -> exists l', @sortF RNum (map Fin l) = map Fin l' /\ incr l' /\ forall y, In y l' <-> In y l.
Proof.
  induction 1 as [|x l HN Hl (l' & E & H1 & H2)]; [exists []; split; [reflexivity|]; split; [constructor|tauto]|]. cbn [map sortF fold_right]. fold (@sortF RNum (map Fin l)). rewrite E. destruct (insertF_incr x l' H1) as (l2 & E2 & H3 & H4); [intros C; apply HN, H2, C|].
  exists l2. split; [exact E2|]. split; [exact H3|]. intros y. rewrite H4, H2. cbn. intuition.
Qed.
Lemma extrema_fin (c : crv RNum) x : In x (extremaX c) \/ In x (extremaY c) -> exists t, x = Fin t /\ 0 <= t <= 1.
Proof.
  unfold extremaX, extremaY. destruct (derive1 c) as [[p0 p1] p2]. destruct (derive2 c) as [q0 q1]. unfold extrema1. intros [H|H]; apply filter_In in H; apply in01_fin; apply H.
Qed.
Lemma reduceParams_spec (c : crv RNum) : exists ts, reduceParams c = map Fin ts /\ incr ts /\ In 0 ts /\ In 1 ts /\ forall t, In t ts -> 0 <= t <= 1.
Proof.
  unfold reduceParams. assert (H : exists l, (extremaX c ++ extremaY c ++ [zero; one])%list = map Fin l /\ In 0 l /\ In 1 l /\ forall t, In t l -> 0 <= t <= 1).
  { destruct (fin_list (extremaX c)) as (lx & Ex & Hx); [intros y Hy; apply (extrema_fin c); auto|]. destruct (fin_list (extremaY c)) as (ly & Ey & Hy); [intros y Hy; apply (extrema_fin c); auto|].
    exists (lx ++ ly ++ [0; 1])%list. rewrite Ex, Ey, !map_app. split; [reflexivity|]. split; [rewrite !in_app_iff; cbn; auto|]. split; [rewrite !in_app_iff; cbn; auto|]. intros t. rewrite !in_app_iff. intros [H|[H|[<-|[<-|[]]]]]; try lra; auto. }
  destruct H as (l & -> & H0 & H1 & HR). unfold Float64ArrayDeDup. change (@nil (T RNum)) with (map Fin []).
  assert (exists l2, @Float64ArrayDeDup_loop RNum (map Fin []) (map Fin l) = map Fin l2) as (l2 & E2).
  { assert (G : forall m : list (T RNum), (forall y, In y m -> exists t, y = Fin t) -> exists k, m = map Fin k). { induction m as [|y m IH]; intros G; [exists []; reflexivity|]. destruct (G y (or_introl eq_refl)) as (t & ->). destruct IH as (k & ->); [intros z Hz; apply G; right; exact Hz|]. exists (t :: k). reflexivity. }
    apply G. intros y Hy. destruct (dedup_in l [] y Hy) as (t & -> & _). eauto. }
  pose proof (dedup_nodup l []) as ND. pose proof (dedup_in l []) as DI. pose proof (dedup_has l []) as DH. rewrite E2 in *. destruct (sortF_incr l2) as (l3 & E3 & I3 & M3); [exact (NoDup_map_inv _ _ ND)|].
  assert (K : forall t, In (Fin t : T RNum) (map Fin l2) -> In t l2) by (intros t Ht; apply in_map_iff in Ht; destruct Ht as (u & E & Hu); injection E as <-; exact Hu).
  exists l3. split; [exact E3|]. split; [exact I3|]. split; [apply M3, K; destruct (DH 0 H0) as [[]|G]; exact G|]. split; [apply M3, K; destruct (DH 1 H1) as [[]|G]; exact G|].
  intros t Ht. apply M3 in Ht. destruct (DI (Fin t) (in_map _ _ _ Ht)) as (u & E & Hu & _). injection E as <-. auto.
Qed.
Lemma splitBetween_covers (c : crv RNum) : finiteCrv c -> forall ts t, incr (t :: ts) -> 0 <= t -> (forall u, In u ts -> u <= 1) -> covers (fun _ => True) c t (last (t :: ts) 0) (splitBetween c (Fin t : T RNum) (map Fin ts : list (T RNum))).
Proof.
  intros F. induction ts as [|u ts IH]; intros t HI H0 H1; [constructor|]. inversion HI as [|? ? HI' HL]; subst. cbn [map splitBetween]. assert (t < u) by (apply HL; left; reflexivity). assert (u <= 1) by (apply H1; left; reflexivity).
  apply covers_cons with (m := u); [|exact I|].
  - split; [reflexivity|]. split; [reflexivity|]. split; [lra|]. split; [assumption|]. cbn [cv]. apply (splitSection_spec (mkCseg c zero zero)); [exact F|lra|assumption].
  - change (last (t :: u :: ts) 0) with (last (u :: ts) 0). apply IH; [exact HI'|lra|]. intros v Hv. apply H1. right. exact Hv.
Qed.
Lemma incr_last l x d : incr (x :: l) -> forall y, In y (x :: l) -> y <= last (x :: l) d.
Proof.
  revert x. induction l as [|z l IH]; intros x HI y Hy; [destruct Hy as [<-|[]]; cbn; lra|]. inversion HI as [|? ? HI' HL]; subst. change (last (x :: z :: l) d) with (last (z :: l) d). destruct Hy as [<-|Hy]; [|apply IH; assumption].
  apply Rle_trans with z; [left; apply HL; left; reflexivity|]. apply IH; [exact HI'|left; reflexivity].
Qed.
Lemma last_In {A} (l : list A) x d : In (last (x :: l) d) (x :: l).
Proof. revert x. induction l as [|y l IH]; intros x; [left; reflexivity|]. right. apply IH. Qed.
Lemma pass1_covers c : finiteCrv c -> covers (fun _ => True) c 0 1 (pass1 c).
Proof.
  intros F. unfold pass1. destruct (reduceParams_spec c) as (ts & -> & HI & H0 & H1 & HR). destruct ts as [|t ts]; [destruct H0|]. cbn [map].
  assert (t = 0). { destruct H0 as [->|H0]; [reflexivity|]. inversion HI as [|? ? _ HL]; subst. apply HL in H0. specialize (HR t (or_introl eq_refl)). lra. } subst t.
  pose proof (splitBetween_covers c F ts 0 HI (Rle_refl 0) (fun u Hu => proj2 (HR u (or_intror Hu)))) as G. replace (last (0 :: ts) 0) with 1 in G; [exact G|]. pose proof (incr_last ts 0 0 HI 1 H1). pose proof (HR _ (last_In ts 0 0)). lra.
Qed.

(** *** the second pass *)
Lemma rstep_fin : @rstep RNum = Fin (1 / 100). Proof. unfold rstep. fin. rewrite fdiv by lra. reflexivity. Qed.
Notation sec p a b := (cv (fst (splitSectionS p (Fin a : T RNum) (Fin b : T RNum)))).
Lemma inner_spec fuel : forall p t1 k, 
  (forall j, (1 <= j < k)%nat -> simple tr bm (sec p t1 (t1 + INR j / 100)) = true) -> (1 <= k)%nat ->
  match innerLoop tr bm fuel p (Fin t1 : T RNum) (Fin (t1 + INR k / 100) : T RNum) with
  | IBreak s t2 => exists j, (1 <= j)%nat /\ t2 = Fin (t1 + INR j / 100) /\ t1 + INR j / 100 <= 1 /\ simple tr bm (sec p t1 (t1 + INR j / 100)) = true /\
      s = mkCseg (sec p t1 (t1 + INR j / 100)) (mapRange (Fin t1 : T RNum) zero one (st1 p) (st2 p)) (mapRange (Fin (t1 + INR j / 100) : T RNum) zero one (st1 p) (st2 p))
  | IDone => forall j, (1 <= j)%nat -> t1 + INR j / 100 <= 1 -> simple tr bm (sec p t1 (t1 + INR j / 100)) = true
  | _ => True
  end.
Proof.
  induction fuel as [|f IH]; intros p t1 k HS Hk; cbn [innerLoop]; [exact I|]. rewrite rstep_fin. fin. destruct (Rleb_spec (t1 + INR k / 100) (1 + 1 / 100)) as [L|G].
  - destruct (simple tr bm (sec p t1 (t1 + INR k / 100))) eqn:ES.
    + replace (t1 + INR k / 100 + 1 / 100) with (t1 + INR (S k) / 100) by (rewrite S_INR; lra). apply IH; [|lia]. intros j Hj. destruct (Nat.eq_dec j k) as [->|]; [exact ES|apply HS; lia].
    + destruct (Nat.eq_dec k 1) as [->|Nk].
      * assert (EA : @ltb RNum (@nabs RNum (Fin (t1 - (t1 + INR 1 / 100 - 1 / 100)))) (Fin (1 / 100)) = true). { cbn [nabs RNum]. unfold er_abs. cbn [ltb er_ltb]. apply Rltb_true. replace (t1 - (t1 + INR 1 / 100 - 1 / 100)) with 0 by (cbn; lra). rewrite Rabs_R0. lra. }
        rewrite EA. exact I.
      * destruct k as [|k]; [lia|]. replace (t1 + INR (S k) / 100 - 1 / 100) with (t1 + INR k / 100) in * by (rewrite S_INR; lra). destruct (@ltb RNum _ _); [exact I|]. exists k. split; [lia|]. split; [reflexivity|]. rewrite S_INR in L. split; [lra|]. split; [apply HS; lia|reflexivity].
  - intros j Hj HL. apply HS. split; [exact Hj|]. apply INR_lt. lra.
Qed.
Lemma outer_spec fuel : forall c p a b k l t, piece c p a b -> (k <= 100)%nat -> outerLoop tr bm fuel p (Fin (INR k / 100) : T RNum) = Ok (Some (l, t)) ->
  exists k', (k <= k' <= 100)%nat /\ t = Fin (INR k' / 100) /\ covers (fun d => simple tr bm d = true) c (a + (b - a) * (INR k / 100)) (a + (b - a) * (INR k' / 100)) l /\
    ((k' < 100)%nat -> simple tr bm (sec p (INR k' / 100) 1) = true).
Proof.
  induction fuel as [|f IH]; intros c p a b k l t HP Hk; cbn [outerLoop]; [discriminate|]. rewrite rstep_fin. fin.
  pose proof (inner_spec f p (INR k / 100) 1 ltac:(intros j Hj; lia) (le_n 1)) as HI. replace (INR k / 100 + INR 1 / 100) with (INR k / 100 + 1 / 100) in HI by (cbn; lra).
  destruct (innerLoop tr bm f p _ _) as [| |s t2|]; try discriminate.
  - intros [= <- <-]. exists k. split; [lia|]. split; [reflexivity|]. split; [constructor|]. intros Hlt. specialize (HI (100 - k)%nat ltac:(lia)). rewrite minus_INR in HI by lia. replace (INR k / 100 + (INR 100 - INR k) / 100) with 1 in HI by (rewrite (INR_IZR_INZ 100); cbn; lra). apply HI. lra.
  - destruct HI as (j & Hj & -> & HL & HS & Es). replace (INR k / 100 + INR j / 100) with (INR (k + j) / 100) in * by (rewrite plus_INR; lra). fin. destruct (Rleb_spec (INR (k + j) / 100) 1) as [_|G]; [|lra].
    assert (HK : (k + j <= 100)%nat) by (apply INR_le; rewrite (INR_IZR_INZ 100); cbn; lra).
    destruct (outerLoop tr bm f p _) as [[[l' t']|]| | |] eqn:EO; cbn [bind]; try discriminate. intros [= <- <-]. destruct (IH c p a b _ _ _ HP HK EO) as (k' & H1 & H2 & H3 & H4). exists k'. split; [lia|]. split; [exact H2|]. split; [|exact H4].
    apply covers_cons with (m := a + (b - a) * (INR (k + j) / 100)); [|rewrite Es; exact HS|exact H3]. rewrite Es. destruct HP as (E1 & E2 & Hab & Hb & HSec). assert (0 <= INR k) by apply pos_INR. assert (INR k < INR (k + j)) by (apply lt_INR; lia).
    rewrite E1, E2, fzero, fone, !mapRange01. pose proof (splitSection_spec p (INR k / 100) (INR (k + j) / 100) (proj1 HSec) ltac:(lra) HL) as G. pose proof (section_trans _ _ _ _ _ _ _ HSec G) as G'. refine (conj _ (conj _ (conj (conj _ _) (conj _ _)))); cbn [st1 st2 cv]; try reflexivity; try exact G'; nra.
Qed.
Lemma pass2_spec fuel c p a b l : piece c p a b -> pass2 tr bm fuel p = Ok (Some l) -> covers (fun d => simple tr bm d = true) c a b l /\ l <> [].
Proof.
  intros HP. unfold pass2. assert (E0 : @zero RNum = Fin (INR 0 / 100)) by (cbn; f_equal; lra). rewrite E0. destruct (outerLoop tr bm fuel p _) as [[[l' t]|]| | |] eqn:EO; cbn [bind]; try discriminate.
  destruct (outer_spec _ _ _ _ _ 0 _ _ HP ltac:(lia) EO) as (k & Hk & -> & HC & HS). replace (a + (b - a) * (INR 0 / 100)) with a in HC by (cbn; lra). fin. destruct (Rltb_spec (INR k / 100) 1) as [L|G].
  - intros EQ. assert (INJ : forall (A : Type) (x y : A), Ok (Some x) = Ok (Some y) -> y = x) by (intros A x y E; injection E; auto). apply INJ in EQ. rewrite EQ. clear INJ EQ. assert ((k < 100)%nat) by (apply INR_lt; rewrite (INR_IZR_INZ 100); cbn; lra). split; [|intros C; apply app_eq_nil in C; destruct C as [_ C]; discriminate C]. apply (covers_app _ _ _ _ _ _ _ HC). pose proof HP as (E1 & E2 & Hab & Hb & HSec). apply covers_cons with (m := b); [|apply HS; assumption|constructor].
    assert (0 <= INR k) by apply pos_INR. pose proof (splitSection_spec p (INR k / 100) 1 (proj1 HSec) ltac:(lra) (Rle_refl 1)) as G. pose proof (section_trans _ _ _ _ _ _ _ HSec G) as G'. replace (a + (b - a) * 1) with b in G' by ring.
    rewrite E1, E2, <- ?E0, ?fzero, ?fone, mapRange01. refine (conj _ (conj _ (conj (conj _ _) (conj _ _)))); cbn [st1 st2 cv]; try reflexivity; try exact G'; nra.
  - assert (INR k = 100). { apply Rle_antisym; [|lra]. replace 100 with (INR 100) by (rewrite INR_IZR_INZ; reflexivity). apply le_INR. lia. } rewrite H in HC. replace (a + (b - a) * (100 / 100)) with b in HC by field. intros [= <-]. split; [exact HC|]. intros ->. inversion HC; subst. destruct HP as (_ & _ & HP & _). lra.
Qed.
Theorem reduce_covers fuel c l : finiteCrv c -> reduce tr bm fuel c = Ok l -> l <> [] -> covers (fun d => simple tr bm d = true) c 0 1 l.
Proof.
  intros F. unfold reduce. assert (G : forall ps acc m, covers (fun _ => True) c m 1 ps -> covers (fun d => simple tr bm d = true) c 0 m acc -> reduceLoop tr bm fuel ps acc = Ok l -> l <> [] -> covers (fun d => simple tr bm d = true) c 0 1 l).
  { induction ps as [|p ps IH]; intros acc m HP HA; cbn [reduceLoop].
    - intros [= ->] _. inversion HP; subst. exact HA.
    - inversion HP as [|? x ? ? ? Hp _ Hps]; subst. destruct (pass2 tr bm fuel p) as [[s|]| | |] eqn:E2; cbn [bind]; try discriminate; [|intros [= <-] C; congruence]. destruct (pass2_spec _ _ _ _ _ _ Hp E2) as [H _]. apply (IH _ x Hps). eapply covers_app; eauto. }
  apply (G _ _ 0 (pass1_covers c F)). constructor.
Qed.
End Reduce.
