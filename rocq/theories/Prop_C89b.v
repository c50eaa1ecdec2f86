(** C89, continued: directories that are not written plainly. *)
From Coq Require Import String Ascii List Bool Arith Lia.
From Verif Require Import Num Output Files TextProofs Prop_C78 Prop_C89.
Import ListNotations.
Local Open Scope string_scope.

(** *** specification: where a path leads, from the directory [cwd] (the names from the root, the last one first) *)
Definition enter (here : list string) (name : string) : list string :=
  if String.eqb name "" || String.eqb name "." then here else if String.eqb name ".." then tl here else name :: here.
Fixpoint goTo (here : list string) (name p : string) : list string :=
  match p with "" => enter here name | String c r => if Ascii.eqb c "/" then goTo (enter here name) "" r else goTo here (name ++ String c "") r end.
Definition rooted (p : string) : bool := match p with String c _ => Ascii.eqb c "/" | "" => false end.
Definition locate (cwd : list string) (p : string) : list string := goTo (if rooted p then [] else cwd) "" p.
(** names only, with a separator in front or with steps up in front *)
Definition tidy (p : string) : Prop := exists ns k, Forall isName ns /\ (p = "/" ++ joinSep ns \/ p = joinSep (repeat ".." k ++ ns) \/ p = ".").

(** *** what cleaning does *)
Lemma goTo_split p : forall here name, goTo here name p = fold_left enter (match splitSep p with n :: ns => (name ++ n) :: ns | [] => [name] end) here.
Proof.
  induction p as [|c p IH]; intros here name; cbn [goTo splitSep]; [rewrite app_nil_r_s; reflexivity|]. destruct (Ascii.eqb c "/").
  - rewrite IH. cbn [fold_left]. rewrite app_nil_r_s. destruct (splitSep p); reflexivity.
  - rewrite IH. destruct (splitSep p) as [|n ns]; [reflexivity|]. rewrite app_assoc_s. reflexivity.
Qed.
Lemma split_not_nil p : splitSep p <> [].
Proof. destruct p as [|c p]; cbn; [discriminate|]. destruct (Ascii.eqb c "/"); [discriminate|]. destruct (splitSep p); discriminate. Qed.
Lemma locate_split cwd p : locate cwd p = fold_left enter (splitSep p) (if rooted p then [] else cwd).
Proof. unfold locate. rewrite goTo_split. pose proof (split_not_nil p). destruct (splitSep p); [contradiction|reflexivity]. Qed.
Lemma without_app c a b : (forall d, In d (list_ascii_of_string a) -> d <> c) -> without c b -> without c (a ++ b).
Proof.
  induction a as [|d a IH]; intros H W; [exact W|]. cbn [append]. intros x y E. destruct x as [|e x]; cbn in E; injection E as E1 E2.
  - apply (H d); [left; reflexivity|exact E1].
  - apply (IH (fun d I => H d (or_intror I)) W x y E2).
Qed.
Lemma without_push c d s : d <> c -> without c s -> without c (String d s).
Proof. intros H W. apply (without_app c (String d "") s); [|exact W]. intros e [<-|[]]. exact H. Qed.
Lemma split_parts p : Forall (without "/") (splitSep p).
Proof.
  induction p as [|c p IH]; cbn; [constructor; [intros [|? ?] b E; discriminate|constructor]|]. destruct (Ascii.eqb_spec c "/") as [_|NC]; [constructor; [intros [|? ?] b E; discriminate|exact IH]|].
  destruct (splitSep p) as [|n ns]; [constructor; [apply without_push; [exact NC|intros [|? ?] b E; discriminate]|constructor]|]. inversion IH; subst. constructor; [apply without_push; assumption|assumption].
Qed.
(** the names kept so far: names, with steps up only below them and only if the path is not rooted *)
Definition kept (r : bool) (acc : list string) : Prop := exists ns k, acc = (ns ++ repeat ".." k)%list /\ Forall isName ns /\ (r = true -> k = 0).
Lemma name_of n : without "/" n -> String.eqb n "" || String.eqb n "." = false -> String.eqb n ".." = false -> isName n.
Proof. intros W H1 H2. apply orb_false_iff in H1 as [H1 H3]. apply String.eqb_neq in H1, H2, H3. repeat split; assumption. Qed.
Lemma enter_name here n : isName n -> enter here n = n :: here.
Proof. intros (H1 & H2 & H3 & _). unfold enter. apply String.eqb_neq in H1, H2, H3. rewrite H1, H2, H3. reflexivity. Qed.
Lemma cleanNames_kept r ns : Forall (without "/") ns -> forall acc, kept r acc -> exists acc', cleanNames r acc ns = rev acc' /\ kept r acc' /\
  forall here, (r = true -> here = []) -> fold_left enter (rev acc') here = fold_left enter ns (fold_left enter (rev acc) here).
Proof.
  induction 1 as [|n ns W F IH]; intros acc K; cbn [cleanNames fold_left]; [exists acc; auto|].
  destruct (String.eqb n "" || String.eqb n ".") eqn:E1.
  - destruct (IH acc K) as (acc' & H1 & H2 & H3). exists acc'. split; [exact H1|]. split; [exact H2|]. intros here Hh. rewrite H3 by exact Hh. unfold enter at 4. rewrite E1. reflexivity.
  - destruct (String.eqb n "..") eqn:E2.
    + assert (n = "..") as -> by (apply String.eqb_eq; exact E2). destruct K as (ms & k & -> & HM & HR). destruct ms as [|m ms]; cbn [List.app].
      * destruct k as [|k]; cbn [repeat].
        -- destruct r.
           ++ destruct (IH []) as (acc' & H1 & H2 & H3); [exists [], 0; auto|]. exists acc'. split; [exact H1|]. split; [exact H2|]. intros here Hh. rewrite H3 by exact Hh. rewrite (Hh eq_refl). reflexivity.
           ++ destruct (IH [".."]) as (acc' & H1 & H2 & H3); [exists [], 1; repeat split; auto; discriminate|]. exists acc'. split; [exact H1|]. split; [exact H2|]. intros here Hh. rewrite H3 by exact Hh. reflexivity.
        -- change (String.eqb ".." "..") with true. cbn iota. destruct r; [specialize (HR eq_refl); discriminate|]. destruct (IH (".." :: ".." :: repeat ".." k)) as (acc' & H1 & H2 & H3); [exists [], (S (S k)); repeat split; auto; discriminate|].
           exists acc'. split; [exact H1|]. split; [exact H2|]. intros here Hh. rewrite H3 by exact Hh. cbn [rev]. rewrite !fold_left_app. reflexivity.
      * inversion HM as [|? ? Nm HM']; subst. assert (E3 : String.eqb m ".." = false) by (apply String.eqb_neq; apply Nm). rewrite E3. destruct (IH (ms ++ repeat ".." k)%list) as (acc' & H1 & H2 & H3); [exists ms, k; auto|].
        exists acc'. split; [exact H1|]. split; [exact H2|]. intros here Hh. rewrite H3 by exact Hh. cbn [rev]. rewrite fold_left_app. cbn [fold_left]. rewrite (enter_name _ m Nm). reflexivity.
    + pose proof (name_of n W E1 E2) as Nn. destruct K as (ms & k & -> & HM & HR). destruct (IH (n :: ms ++ repeat ".." k)%list) as (acc' & H1 & H2 & H3); [exists (n :: ms), k; repeat split; auto|].
      exists acc'. split; [exact H1|]. split; [exact H2|]. intros here Hh. rewrite H3 by exact Hh. cbn [rev]. rewrite fold_left_app. reflexivity.
Qed.
Lemma rev_repeat {A} (x : A) k : rev (repeat x k) = repeat x k.
Proof. induction k as [|k IH]; [reflexivity|]. cbn [repeat rev]. rewrite IH. symmetry. apply repeat_cons. Qed.
Lemma kept_parts r acc : kept r acc -> exists ns k, rev acc = (repeat ".." k ++ ns)%list /\ Forall isName ns /\ (r = true -> k = 0).
Proof. intros (ns & k & -> & F & H). exists (rev ns), k. rewrite rev_app_distr, rev_repeat. split; [reflexivity|]. split; [apply Forall_rev, F|exact H]. Qed.
Definition part (n : string) : Prop := n <> "" /\ without "/" n.
Lemma up_part : part "..".
Proof. split; [discriminate|]. apply without_push; [discriminate|]. apply without_push; [discriminate|]. intros [|? ?] b E; discriminate. Qed.
Lemma ups_parts k ns : Forall isName ns -> Forall part (repeat ".." k ++ ns).
Proof. intros F. apply Forall_app. split; [|eapply Forall_impl; [|exact F]; intros n (H & _ & _ & W); split; assumption]. apply Forall_forall. intros x I. apply repeat_spec in I as ->. exact up_part. Qed.
Lemma split_join_parts ns : ns <> [] -> Forall part ns -> splitSep (joinSep ns) = ns.
Proof.
  induction ns as [|n [|m r] IH]; intros NE F; [contradiction| |].
  - inversion F as [|? ? [_ W] _]; subst. cbn. apply split_none. exact W.
  - inversion F as [|? ? [_ W] F']; subst. rewrite join_cons, split_cons by auto. rewrite IH; [reflexivity|discriminate|exact F'].
Qed.
Lemma join_not_rooted ns : ns <> [] -> Forall part ns -> rooted (joinSep ns) = false /\ joinSep ns <> "".
Proof.
  intros NE F. destruct ns as [|n r]; [contradiction|]. inversion F as [|? ? [N1 W] _]; subst. destruct n as [|c n]; [contradiction|]. apply without_cons in W as [C _]. destruct r as [|m r]; (split; [|discriminate]); cbn; apply Ascii.eqb_neq; exact C.
Qed.
Lemma clean_cases p : (rooted p = true /\ exists r, p = String "/" r /\ clean p = "/" ++ joinSep (cleanNames true [] (splitSep r))) \/
  (rooted p = false /\ clean p = match cleanNames false [] (splitSep p) with [] => "." | ns => joinSep ns end).
Proof.
  destruct p as [|c r]; [right; split; reflexivity|]. cbn [rooted]. destruct (Ascii.eqb_spec c "/") as [->|NC]; [left; split; [reflexivity|]; exists r; split; reflexivity|right; split; [reflexivity|]].
  unfold clean. destruct c as [[] [] [] [] [] [] [] []]; try reflexivity. destruct (NC eq_refl).
Qed.
(** cleaning leads to the same place and leaves a tidy text *)
Lemma clean_place cwd p : locate cwd (clean p) = locate cwd p.
Proof.
  rewrite (locate_split cwd p). destruct (clean_cases p) as [(-> & r & -> & ->)|(-> & ->)].
  - destruct (cleanNames_kept true (splitSep r) (split_parts r) [] ltac:(exists [], 0; auto)) as (acc & -> & K & H). specialize (H [] (fun _ => eq_refl)). rewrite locate_split. cbn [append rooted]. change (Ascii.eqb "/" "/") with true. cbn iota. cbn [splitSep]. change (Ascii.eqb "/" "/") with true. cbn iota. cbn [fold_left]. change (enter [] "") with (@nil string).
    destruct (kept_parts _ _ K) as (ns & k & E & F & HK). rewrite (HK eq_refl) in E. cbn [repeat List.app] in E. rewrite E in *. destruct ns as [|n ns]; [exact H|]. rewrite split_join; [exact H|discriminate|exact F].
  - destruct (cleanNames_kept false (splitSep p) (split_parts p) [] ltac:(exists [], 0; auto)) as (acc & -> & K & H). specialize (H cwd ltac:(discriminate)). destruct (kept_parts _ _ K) as (ns & k & E & F & _). rewrite E in *. pose proof (ups_parts k ns F) as FP.
    destruct (repeat ".." k ++ ns)%list as [|m ms]; [exact H|]. destruct (join_not_rooted (m :: ms) ltac:(discriminate) FP) as [R _]. rewrite locate_split, R, split_join_parts; [exact H|discriminate|exact FP].
Qed.
Lemma clean_tidy p : tidy (clean p) /\ clean p <> "".
Proof.
  destruct (clean_cases p) as [(_ & r & _ & ->)|(_ & ->)].
  - destruct (cleanNames_kept true (splitSep r) (split_parts r) [] ltac:(exists [], 0; auto)) as (acc & -> & K & _). destruct (kept_parts _ _ K) as (ns & k & E & F & HK). rewrite (HK eq_refl) in E. rewrite E. split; [exists ns, 0; split; [exact F|left; reflexivity]|discriminate].
  - destruct (cleanNames_kept false (splitSep p) (split_parts p) [] ltac:(exists [], 0; auto)) as (acc & -> & K & _). destruct (kept_parts _ _ K) as (ns & k & E & F & HK). rewrite E. pose proof (ups_parts k ns F) as FP. destruct (repeat ".." k ++ ns)%list as [|m ms] eqn:E'; [split; [exists [], 0; split; [constructor|right; right; reflexivity]|discriminate]|].
    split; [|apply (join_not_rooted (m :: ms)); [discriminate|exact FP]]. exists ns, k. split; [exact F|]. right. left. rewrite E'. reflexivity.
Qed.
Lemma goTo_down d n : without "/" n -> forall here name, goTo here name (d ++ "/" ++ n) = enter (goTo here name d) n.
Proof.
  intros W. induction d as [|c d IH]; intros here name.
  - change (goTo here name ("" ++ "/" ++ n)) with (goTo (enter here name) "" n). rewrite goTo_split, split_none by exact W. reflexivity.
  - cbn [append goTo]. destruct (Ascii.eqb c "/"); apply IH.
Qed.
Lemma joinPath_place cwd d n : d <> "" -> isName n -> locate cwd (joinPath d n) = n :: locate cwd d.
Proof.
  intros HD HN. unfold joinPath. rewrite clean_place. unfold locate. replace (rooted (d ++ "/" ++ n)) with (rooted d) by (destruct d; [contradiction|reflexivity]). rewrite goTo_down by apply HN. apply enter_name, HN.
Qed.
Lemma endsIn_trans a b c : endsIn a b -> endsIn b c -> endsIn a c.
Proof. intros (x & ->) (y & ->). exists (x ++ y). rewrite app_assoc_s. reflexivity. Qed.
Lemma cleanNames_snoc r n : isName n -> forall xs acc, cleanNames r acc (xs ++ [n]) = (cleanNames r acc xs ++ [n])%list.
Proof.
  intros (H1 & H2 & H3 & _). apply String.eqb_neq in H1, H2, H3. induction xs as [|x xs IH]; intros acc; cbn [List.app cleanNames]; [rewrite H1, H2, H3; reflexivity|].
  destruct (_ || _); [apply IH|]. destruct (String.eqb x ".."); [|apply IH]. destruct acc as [|a acc]; [destruct r; apply IH|]. destruct (String.eqb a ".."); apply IH.
Qed.
Lemma split_snoc d n : without "/" n -> splitSep (d ++ "/" ++ n) = (splitSep d ++ [n])%list.
Proof.
  intros W. induction d as [|c d IH]; [change ("" ++ "/" ++ n) with (String "/" n); cbn [splitSep]; rewrite split_none by exact W; reflexivity|]. cbn [append splitSep] in *. rewrite IH. pose proof (split_not_nil d). destruct (Ascii.eqb c "/"); [reflexivity|]. destruct (splitSep d); [contradiction|reflexivity].
Qed.
Lemma join_ends xs n : endsIn (joinSep (xs ++ [n])) n.
Proof. destruct xs as [|x xs]; [exists ""; reflexivity|]. rewrite join_snoc by discriminate. exists (joinSep (x :: xs) ++ "/"). rewrite app_assoc_s. reflexivity. Qed.
Lemma joinPath_ends d n : isName n -> endsIn (joinPath d n) n.
Proof.
  intros HN. unfold joinPath. destruct (clean_cases (d ++ "/" ++ n)) as [(_ & r & E & ->)|(_ & ->)].
  - assert (H : exists xs, splitSep r = (xs ++ [n])%list).
    { destruct d as [|c d]; cbn in E; injection E; [intros <-; exists []; apply split_none, HN|intros <- _; exists (splitSep d); apply split_snoc, HN]. }
    destruct H as (xs & ->). rewrite cleanNames_snoc by exact HN. destruct (join_ends (cleanNames true [] xs) n) as (x & ->). exists ("/" ++ x). rewrite app_assoc_s. reflexivity.
  - rewrite split_snoc by apply HN. rewrite cleanNames_snoc by exact HN. assert (X : forall ys, endsIn (match (ys ++ [n])%list with [] => "." | ns => joinSep ns end) n); [|apply X]. intros ys. pose proof (join_ends ys n) as J. destruct (ys ++ [n])%list eqn:E; [destruct ys; discriminate|exact J].
Qed.
Lemma visits_place cwd : forall k t d, node_size t < k -> d <> "" -> named t ->
  (forall p b, In (p, b) (visits d t) -> exists ns t', at_ t ns t' /\ locate cwd p = (rev ns ++ locate cwd d)%list /\ b = isDirNode t' /\ (ns = [] -> p = d) /\ (ns <> [] -> tidy p)) /\
  (forall ns t', at_ t ns t' -> exists p, In (p, isDirNode t') (visits d t) /\ locate cwd p = (rev ns ++ locate cwd d)%list /\ (ns = [] -> p = d) /\ forall ms n, ns = (ms ++ [n])%list -> endsIn p n).
Proof.
  induction k as [|k IH]; intros t d K HD NT; [lia|]. destruct t as [|es].
  - cbn [visits]. split.
    + intros p b [E|[]]. injection E as <- <-. exists [], File. repeat split; auto; [constructor|congruence].
    + intros ns t' A. inversion A; subst. exists d. repeat split; [left; reflexivity|]. intros [|? ?] n E; discriminate.
  - rewrite visits_dir. inversion NT as [|? HN ND]; subst. split.
    + intros p b [E|I].
      * injection E as <- <-. exists [], (Dir es). repeat split; auto; [constructor|congruence].
      * apply in_flat_map in I. destruct I as ((n & t) & Ie & I). cbn [fst snd] in I. destruct (HN n t Ie) as [Nn Nt]. destruct (clean_tidy (d ++ "/" ++ n)) as [TJ NJ].
        destruct (IH t (joinPath d n) ltac:(pose proof (size_in n t es Ie); lia) NJ Nt) as [H _]. destruct (H p b I) as (ns & t' & A & L & B & P1 & P2). exists (n :: ns), t'. split; [econstructor; eauto|]. split; [|split; [exact B|split; [discriminate|intros _]]].
        -- rewrite L, joinPath_place by auto. cbn [rev]. rewrite <- List.app_assoc. reflexivity.
        -- destruct ns; [rewrite (P1 eq_refl); exact TJ|apply P2; discriminate].
    + intros ns t' A. inversion A as [|? n t ns' ? Ie A']; subst; [exists d; repeat split; [left; reflexivity|]; intros [|? ?] n E; discriminate|]. destruct (HN n t Ie) as [Nn Nt]. destruct (clean_tidy (d ++ "/" ++ n)) as [TJ NJ].
      destruct (IH t (joinPath d n) ltac:(pose proof (size_in n t es Ie); lia) NJ Nt) as [_ H]. destruct (H ns' t' A') as (p & I & L & E0 & EE). exists p. split; [right; apply in_flat_map; exists (n, t); split; [exact Ie|exact I]|]. split; [rewrite L, joinPath_place by auto; cbn [rev]; rewrite <- List.app_assoc; reflexivity|]. split; [discriminate|].
      intros ms m E. destruct ms as [|x ms]; injection E; [intros -> ->; rewrite (E0 eq_refl); apply joinPath_ends, Nn|intros -> _; apply (EE ms m eq_refl)].
Qed.

(** However the directory is written: the paths that are listed end in the ending and lead to files of the directory, and there is one for every file in it whose name has the ending. *)
Theorem C89_place cwd d t ext : d <> "" -> named t ->
  (forall p, In p (listFiles d t ext) -> endsIn p ext /\ exists ns, at_ t ns File /\ locate cwd p = (rev ns ++ locate cwd d)%list) /\
  (forall ns n, at_ t (ns ++ [n]) File -> endsIn n ext -> exists p, In p (listFiles d t ext) /\ locate cwd p = (n :: rev ns ++ locate cwd d)%list).
Proof.
  intros HD NT. destruct (visits_place cwd (S (node_size t)) t d ltac:(lia) HD NT) as [H1 H2]. unfold listFiles. split.
  - intros p I. apply in_map_iff in I as ((q & b) & <- & I). apply filter_In in I as [I C]. cbn [fst snd] in C. apply andb_true_iff in C as [C1 C2]. apply hasSuffix_iff in C2. split; [exact C2|]. destruct (H1 q b I) as (ns & t' & A & L & -> & _). exists ns. destruct t'; [auto|discriminate].
  - intros ns n A E. destruct (H2 _ File A) as (p & I & L & _ & EE). exists p. split; [|rewrite L, rev_app_distr; reflexivity]. apply in_map_iff. exists (p, false). split; [reflexivity|]. apply filter_In. split; [exact I|]. cbn [fst snd]. pose proof (endsIn_trans _ _ _ (EE ns n eq_refl) E) as E'. apply hasSuffix_iff in E'. rewrite E'. reflexivity.
Qed.
(** The paths of what is in a directory are tidy: steps up are in front, if at all. *)
Theorem C89_tidy d es ext p : d <> "" -> named (Dir es) -> In p (listFiles d (Dir es) ext) -> tidy p.
Proof.
  intros HD NT I. unfold listFiles in I. apply in_map_iff in I as ((q & b) & <- & I). apply filter_In in I as [I C]. cbn [fst snd] in *. destruct (visits_place [] (S (node_size (Dir es))) (Dir es) d ltac:(lia) HD NT) as [H1 _].
  destruct (H1 q b I) as (ns & t' & A & _ & -> & P1 & P2). apply P2. intros ->. inversion A; subst. discriminate.
Qed.
Example C89_place_ex : listFiles "designs/old/..//./new" exTree "hfd" = ["designs/new/boxes/lid.hfd"; "designs/new/plate.hfd"] /\ listFiles "../designs" exTree "hfd" = ["../designs/boxes/lid.hfd"; "../designs/plate.hfd"] /\
  listFiles "/../designs" exTree "hfd" = ["/designs/boxes/lid.hfd"; "/designs/plate.hfd"] /\
  locate ["home"] "designs/old/..//./new" = ["new"; "designs"; "home"] /\ locate ["home"] "../designs/plate.hfd" = ["plate.hfd"; "designs"] /\ locate ["home"] "/../designs" = ["designs"].
Proof. repeat split. Qed.
Example C89_tidy_ex : tidy "../designs/plate.hfd".
Proof.
  exists ["designs"; "plate.hfd"], 1. split; [|right; left; reflexivity].
  assert (W : forall s, afterLast "/" s = None -> without "/" s) by (intros s H a b ->; clear -H; induction a as [|c a IH]; cbn in H; [destruct (afterLast "/" b); discriminate|destruct (afterLast "/" (a ++ String "/" b)); [discriminate|apply IH; reflexivity]]).
  repeat constructor; try discriminate; apply W; reflexivity.
Qed.
Print Assumptions C89_place. Print Assumptions C89_tidy.
