(** C72: documents that refer to files. *)
From Coq Require Import String Ascii List ZArith Bool Permutation Lia.
From Verif Require Import Num DynModel DynProofs Components Docs DocsProofs.
Import ListNotations.
Local Open Scope string_scope.
Local Open Scope list_scope.

Lemma jget_plain m k : splitDots k = [k] -> jget m k = lookup k m.
Proof. intros H. unfold jget. rewrite H. destruct (lookup k m); reflexivity. Qed.
Lemma jwalk_lookup a b k r : lookup k a = lookup k b -> jwalk a (k :: r) = jwalk b (k :: r).
Proof. intros H. destruct r as [|k2 r]; [rewrite !jwalk_one; exact H|]. rewrite !jwalk_cons, H. reflexivity. Qed.
Lemma jwalk_merge_none r k a b : uobj b -> agree a b k -> (jwalk (jmerge a b) (k :: r) = None <-> jwalk b (k :: r) = None /\ jwalk a (k :: r) = None).
Proof.
  intros U A. destruct (jwalk_merge r k a b U A) as [M1 M2]. split.
  - intros H. rewrite H in *. split.
    + destruct (jwalk b (k :: r)) as [[s|n|l|l]|] eqn:E; [| | | |reflexivity]; exfalso.
      1-3: (assert (X : None = Some (match jwalk b (k :: r) with Some v => v | None => JOther 0 end)); [|discriminate X]); rewrite E; apply M1; [intros (o & Eo); discriminate|left; reflexivity].
      destruct M2 as [_ M2]. destruct M2 as (o & Eo); [left; eexists; reflexivity|discriminate].
    + destruct (jwalk a (k :: r)) as [[s|n|l|l]|] eqn:E; [| | | |reflexivity]; exfalso.
      4: destruct M2 as [_ M2]; destruct M2 as (o & Eo); [right; eexists; reflexivity|discriminate].
      all: destruct (jwalk b (k :: r)) as [w|] eqn:EB; [destruct (A r _ _ E EB) as [_ A2]; destruct w as [s'|n'|l'|l']; [| | |destruct A2 as (o & Eo); [eexists; reflexivity|discriminate]]|].
      all: match goal with
           | M : forall v, ~ isMap v -> (None = Some v <-> Some ?w = Some v \/ _) |- _ => enough (X : None = Some w) by discriminate X; apply M; [intros (o & Eo); discriminate|left; reflexivity]
           | M : forall v, ~ isMap v -> (None = Some v <-> None = Some v \/ (_ /\ Some ?w = Some v)) |- _ => enough (X : None = Some w) by discriminate X; apply M; [intros (o & Eo); discriminate|right; split; reflexivity]
           end.
  - intros [HB HA]. rewrite HA, HB in *. destruct (jwalk (jmerge a b) (k :: r)) as [v|] eqn:E; [|reflexivity]. exfalso. destruct v as [s|n|l|l].
    4: destruct M2 as [M2 _]; destruct M2 as [(o & Eo)|(o & Eo)]; [eexists; reflexivity|discriminate|discriminate].
    all: match goal with |- _ => idtac end.
    all: match type of E with _ = Some ?w => destruct (proj1 (M1 w ltac:(intros (o & Eo); discriminate)) eq_refl) as [X|[_ X]]; discriminate X end.
Qed.

Section Files.
Variable show : json -> string.
Variable hash : obj -> string.
Variable files : string -> option obj.
Variable svgs : string -> option string.
Variable shuffle : list comp -> list comp.
Notation Parse := (Parse show hash files svgs shuffle).
Notation getStr := (getStr show).

(** a document and the files it refers to, one after the other *)
Inductive links : obj -> list obj -> Prop :=
| links_end dm : getStr dm "filename" = None -> links dm []
| links_more dm name d ds : getStr dm "filename" = Some name -> files name = Some d -> links d ds -> links dm (d :: ds).
(** the value at a path in the first of several documents that has one *)
Inductive nearest : list obj -> list string -> json -> Prop :=
| near_here d ds p v : jwalk d p = Some v -> nearest (d :: ds) p v
| near_later d ds p v : jwalk d p = None -> nearest ds p v -> nearest (d :: ds) p v.
(** the imports of a document, if any, are a list of maps *)
Definition goodImports (d : obj) : Prop := lookup "imports" d = None \/ exists l os, lookup "imports" d = Some (JArr l) /\ allObjs l = Some os.
Definition plain (k : string) : Prop := k <> "filename" /\ k <> "imports".

Lemma getStr_lookup a b k : splitDots k = [k] -> lookup k a = lookup k b -> getStr a k = getStr b k.
Proof. intros HS H. unfold Docs.getStr. rewrite !jget_plain, H by exact HS. reflexivity. Qed.
Lemma objs_lookup a b k : splitDots k = [k] -> lookup k a = lookup k b -> objs a k = objs b k.
Proof. intros HS H. unfold objs. rewrite !jget_plain, H by exact HS. reflexivity. Qed.
Lemma lookup_addTo m k v k' : k <> k' -> lookup k' (addTo m k v) = lookup k' m.
Proof. intros N. unfold addTo. destruct (jget m k) as [[]|]; try reflexivity; apply lookup_set_other; exact N. Qed.
Lemma lookup_addAll k k' l : k <> k' -> forall m, lookup k' (fold_left (fun m i => addTo m k (JObj i)) l m) = lookup k' m.
Proof. intros N. induction l as [|i l IH]; intros m; cbn [fold_left]; [reflexivity|]. rewrite IH. apply lookup_addTo, N. Qed.
Lemma allObjs_snoc l os o : allObjs l = Some os -> allObjs (l ++ [JObj o]) = Some (os ++ [o]).
Proof.
  revert os. induction l as [|[s|n|l'|o'] l IH]; intros os H; cbn [allObjs app] in *; try discriminate; [injection H as <-; reflexivity|].
  destruct (allObjs l) as [os'|]; [|discriminate]. cbn [option_map] in H. injection H as <-. rewrite (IH os' eq_refl). reflexivity.
Qed.
Lemma addAll_imports l : forall d, goodImports d -> objs (fold_left (fun m i => addTo m "imports" (JObj i)) l d) "imports" = objs d "imports" ++ l /\
  goodImports (fold_left (fun m i => addTo m "imports" (JObj i)) l d).
Proof.
  induction l as [|i l IH]; intros d G; cbn [fold_left]; [rewrite app_nil_r; auto|].
  assert (G' : goodImports (addTo d "imports" (JObj i)) /\ objs (addTo d "imports" (JObj i)) "imports" = objs d "imports" ++ [i]).
  { unfold addTo, objs. rewrite (jget_plain d) by reflexivity. destruct G as [G|(l0 & os & G & A)]; rewrite G.
    - split; [right; exists [JObj i], [i]; split; [apply lookup_set_same|reflexivity]|]. rewrite jget_plain, lookup_set_same by reflexivity. reflexivity.
    - rewrite A. split; [right; exists (l0 ++ [JObj i]), (os ++ [i]); split; [apply lookup_set_same|apply allObjs_snoc, A]|].
      rewrite jget_plain, lookup_set_same, (allObjs_snoc _ _ _ A) by reflexivity. reflexivity. }
  destruct G' as [G1 G2]. destruct (IH _ G1) as [I1 I2]. rewrite I1, G2, <- app_assoc. split; [reflexivity|exact I2].
Qed.

(** [acc] is what the documents of [seen] say together *)
Record sums (acc : obj) (seen : list obj) : Prop := mkSums {
  su_val : forall k r v, plain k -> ~ isMap v -> (jwalk acc (k :: r) = Some v <-> nearest seen (k :: r) v);
  su_map : forall k r, plain k -> ((exists o, jwalk acc (k :: r) = Some (JObj o)) <-> Exists (fun d => exists o, jwalk d (k :: r) = Some (JObj o)) seen);
  su_none : forall k r, plain k -> (jwalk acc (k :: r) = None <-> Forall (fun d => jwalk d (k :: r) = None) seen);
  su_imports : objs acc "imports" = concat (rev (map (fun d => objs d "imports") seen)) }.

Lemma nearest_snoc s d p v : nearest (s ++ [d]) p v <-> nearest s p v \/ (Forall (fun d => jwalk d p = None) s /\ jwalk d p = Some v).
Proof.
  induction s as [|x s IH]; cbn [app].
  - split; [intros H; inversion H; subst; [right; auto|match goal with Q : nearest [] _ _ |- _ => inversion Q end]|intros [H|[_ H]]; [inversion H|apply near_here, H]].
  - split.
    + intros H; inversion H as [? ? ? ? E|? ? ? ? E Q]; subst; [left; apply near_here, E|]. apply IH in Q. destruct Q as [Q|[Q1 Q2]]; [left; apply near_later; auto|right; auto].
    + intros [H|[H1 H2]]; [inversion H as [? ? ? ? E|? ? ? ? E Q]; subst; [apply near_here, E|apply near_later; [exact E|apply IH; auto]]|].
      inversion H1; subst. apply near_later; [assumption|]. apply IH. auto.
Qed.
Lemma nearest_in s p v : nearest s p v -> exists d, In d s /\ jwalk d p = Some v.
Proof. induction 1 as [d ds p v H|d ds p v H _ (d' & I & E)]; [exists d; cbn; auto|exists d'; cbn; auto]. Qed.

Lemma sums_step acc seen d : uobj acc -> sums acc seen -> goodImports d -> (forall k s, plain k -> In s seen -> agree d s k) ->
  sums (jmerge (fold_left (fun m i => addTo m "imports" (JObj i)) (objs acc "imports") d) (del "imports" (del "filename" acc))) (seen ++ [d]).
Proof.
  intros U S G AG. set (d' := fold_left _ _ d). set (acc' := del "imports" (del "filename" acc)).
  assert (UA : uobj acc') by (apply uniq_del, uniq_del, U).
  assert (LA : forall k r, plain k -> jwalk acc' (k :: r) = jwalk acc (k :: r)) by (intros k r [P1 P2]; apply jwalk_lookup; unfold acc'; rewrite !lookup_del_other by auto; reflexivity).
  assert (LD : forall k r, plain k -> jwalk d' (k :: r) = jwalk d (k :: r)) by (intros k r [P1 P2]; apply jwalk_lookup; apply lookup_addAll; auto).
  assert (AGR : forall k, plain k -> agree d' acc' k).
  { intros k P r v w H1 H2. rewrite LD in H1 by exact P. rewrite LA in H2 by exact P. assert (D : isMap w \/ ~ isMap w) by (destruct w; [right|right|right|left; eexists; reflexivity]; intros (o & E); discriminate).
    destruct D as [(o & ->)|D].
    - assert (E : Exists (fun d => exists o, jwalk d (k :: r) = Some (JObj o)) seen) by (apply (su_map _ _ S); [exact P|eexists; exact H2]). apply Exists_exists in E. destruct E as (s & I & o' & E).
      rewrite (AG k s P I r _ _ H1 E). split; intros _; eexists; reflexivity.
    - apply (su_val _ _ S) in H2; [|exact P|exact D]. apply nearest_in in H2. destruct H2 as (s & I & E). apply (AG k s P I r _ _ H1 E). }
  constructor.
  - intros k r v P HV. destruct (jwalk_merge r k d' acc' UA (AGR k P)) as [M _]. rewrite (M v HV), nearest_snoc, LA, LD by exact P. rewrite (su_val _ _ S k r v P HV), (su_none _ _ S k r P). tauto.
  - intros k r P. destruct (jwalk_merge r k d' acc' UA (AGR k P)) as [_ M]. rewrite M, Exists_app, LA, LD by exact P. rewrite (su_map _ _ S k r P). split; (intros [H|H]; [left; exact H|right]).
    + constructor; exact H.
    + inversion H as [? ? Q|? ? Q]; subst; [exact Q|inversion Q].
  - intros k r P. rewrite (jwalk_merge_none r k d' acc' UA (AGR k P)), Forall_app, LA, LD, (su_none _ _ S k r P) by exact P. split; (intros [H1 H2]; split; [exact H1|]); [repeat constructor; exact H2|inversion H2; assumption].
  - assert (E : lookup "imports" (jmerge d' acc') = lookup "imports" d') by (rewrite lookup_jmerge by exact UA; unfold acc'; rewrite lookup_del_same; reflexivity).
    rewrite (objs_lookup _ _ "imports" eq_refl E). unfold d'. rewrite (proj1 (addAll_imports _ _ G)), (su_imports _ _ S), map_app, rev_app_distr. reflexivity.
Qed.

(** A document that refers to a file is parsed as one document: a value is taken from the nearest of the files that has it, maps are merged, and the imports of the
    farthest file come first. *)
Theorem C72_files dm ds : links dm ds -> Forall (fun d => uobj d) (dm :: ds) -> Forall goodImports (dm :: ds) ->
  (forall k a b, plain k -> In a (dm :: ds) -> In b (dm :: ds) -> agree a b k) ->
  exists full, getStr full "filename" = None /\ (forall fuel, Parse (List.length ds + fuel) dm = Parse fuel full) /\
    (forall k r v, plain k -> ~ isMap v -> (jwalk full (k :: r) = Some v <-> nearest (dm :: ds) (k :: r) v)) /\
    objs full "imports" = concat (rev (map (fun d => objs d "imports") (dm :: ds))).
Proof.
  intros L U G AG.
  assert (gen : forall d ds, links d ds -> forall acc seen, uobj acc -> sums acc seen -> lookup "filename" acc = lookup "filename" d -> Forall (fun d => uobj d) ds -> Forall goodImports ds ->
    (forall k a b, plain k -> In a (seen ++ ds) -> In b (seen ++ ds) -> agree a b k) ->
    exists full, getStr full "filename" = None /\ (forall fuel, Parse (List.length ds + fuel) acc = Parse fuel full) /\ sums full (seen ++ ds)).
  { clear. intros d ds L. induction L as [d E|d name d1 ds E EF L IH]; intros acc seen U S EL FU FG AG.
    - exists acc. rewrite app_nil_r. split; [rewrite (getStr_lookup acc d "filename" eq_refl EL); exact E|]. split; [reflexivity|exact S].
    - inversion FU as [|? ? U1 FU']; subst. inversion FG as [|? ? G1 FG']; subst.
      destruct (IH (jmerge (fold_left (fun m i => addTo m "imports" (JObj i)) (objs acc "imports") d1) (del "imports" (del "filename" acc))) (seen ++ [d1])) as (full & F1 & F2 & F3).
      + apply uniq_jmerge; [apply uniq_addAll, U1|apply uniq_del, uniq_del, U].
      + apply sums_step; auto. intros k s P I. apply AG; [exact P|apply in_or_app; right; left; reflexivity|apply in_or_app; left; exact I].
      + rewrite lookup_jmerge by (apply uniq_del, uniq_del, U). rewrite lookup_del_other, lookup_del_same by discriminate. apply lookup_addAll. discriminate.
      + exact FU'.
      + exact FG'.
      + intros k a b P IA IB. rewrite <- app_assoc in IA, IB. exact (AG k a b P IA IB).
      + exists full. split; [exact F1|]. split; [|rewrite <- app_assoc in F3; exact F3]. intros fuel. cbn [List.length Nat.add Docs.Parse]. unfold mustStr. rewrite (getStr_lookup acc d "filename" eq_refl EL), E.
        assert (NE : name <> ""%string) by (unfold Docs.getStr in E; destruct (jget d "filename") as [v|]; [|discriminate]; destruct (match v with JStr s => s | _ => show v end); [discriminate|injection E as <-; discriminate]).
        destruct name as [|c name]; [contradiction|]. rewrite EF. apply F2. }
  inversion U as [|? ? U0 U']; subst. inversion G as [|? ? G0 G']; subst.
  destruct (gen dm ds L dm [dm] U0) as (full & F1 & F2 & F3); auto.
  { constructor.
    - intros k r v _ HV. split; [intros H; apply near_here, H|intros H; inversion H as [|? ? ? ? ? Q]; subst; [assumption|inversion Q]].
    - intros k r _. split; [intros H; constructor; exact H|intros H; inversion H as [? ? Q|? ? Q]; subst; [exact Q|inversion Q]].
    - intros k r _. split; [intros H; repeat constructor; exact H|intros H; inversion H; assumption].
    - cbn [map rev concat app]. rewrite app_nil_r. reflexivity. }
  exists full. split; [exact F1|]. split; [exact F2|]. split; [apply (su_val _ _ F3)|apply (su_imports _ _ F3)].
Qed.
(** If one of the files cannot be read, neither can the document. *)
Inductive broken : obj -> Prop :=
| broken_here dm name : getStr dm "filename" = Some name -> files name = None -> broken dm
| broken_later dm name d : getStr dm "filename" = Some name -> files name = Some d -> broken d -> broken dm.
Lemma name_nonempty d k name : getStr d k = Some name -> name <> ""%string.
Proof. unfold Docs.getStr. destruct (jget d k) as [v|]; [|discriminate]. destruct (match v with JStr s => s | _ => show v end); [discriminate|intros [= <-]; discriminate]. Qed.
Theorem C72_unreadable dm : (forall name d, files name = Some d -> uobj d) -> broken dm -> uobj dm -> exists n, forall fuel, Parse (n + fuel) dm = Err.
Proof.
  intros UF B. assert (gen : forall d, broken d -> forall acc, uobj acc -> lookup "filename" acc = lookup "filename" d -> exists n, forall fuel, Parse (n + fuel) acc = Err).
  { clear -UF. induction 1 as [d name E EF|d name d1 E EF B IH]; intros acc U EL.
    - exists 1%nat. intros fuel. cbn [Nat.add Docs.Parse]. unfold mustStr. rewrite (getStr_lookup acc d "filename" eq_refl EL), E. destruct name as [|c name]; [apply name_nonempty in E; contradiction|]. rewrite EF. reflexivity.
    - destruct (IH (jmerge (fold_left (fun m i => addTo m "imports" (JObj i)) (objs acc "imports") d1) (del "imports" (del "filename" acc)))) as (n & Hn).
      + apply uniq_jmerge; [apply uniq_addAll, (UF _ _ EF)|apply uniq_del, uniq_del, U].
      + rewrite lookup_jmerge by (apply uniq_del, uniq_del, U). rewrite lookup_del_other, lookup_del_same by discriminate. apply lookup_addAll. discriminate.
      + exists (S n). intros fuel. cbn [Nat.add Docs.Parse]. unfold mustStr. rewrite (getStr_lookup acc d "filename" eq_refl EL), E. destruct name as [|c name]; [apply name_nonempty in E; contradiction|]. rewrite EF. apply Hn. }
  intros U. eapply gen; eauto.
Qed.

(** ** imports *)
(** an element of a document *)
Definition element (d : doc) (e : comp) : Prop := exists p, In p (d_parts d) /\ below e p.
(** the element is imported under the name [n] *)
Definition named (imp : obj) (e : comp) (n : string) : Prop := exists t, getStr (cmap e) "custom_component.type" = Some t /\ n = mustStr show imp ("alias." ++ t) t.
Definition isComponent (imp : obj) : Prop := getStr imp "type" = None \/ getStr imp "type" = Some "component".
(** an import that provides the name [n] *)
Definition gives (imp : obj) (n : string) : Prop := isComponent imp /\ exists m fuel d e, files (mustStr show imp "path" "") = Some m /\ Parse fuel m = Ok d /\ element d e /\ named imp e n.

Lemma imports_app parse l1 l2 st : imports show files svgs shuffle parse (l1 ++ l2) st = bind (imports show files svgs shuffle parse l1 st) (imports show files svgs shuffle parse l2).
Proof. revert st. induction l1 as [|i l1 IH]; intros st; cbn [app imports bind]; [reflexivity|]. destruct (import _ _ _ _ parse i st); cbn [bind]; auto. Qed.
Lemma define_other d imp n e cs : ~ named imp e n -> lookup n (define show d imp cs e) = lookup n cs.
Proof.
  intros H. unfold define, mustStr. destruct (getStr (cmap e) "custom_component.type") as [t|] eqn:E; [|reflexivity]. destruct t as [|c t]; [reflexivity|].
  apply lookup_set_other. intros N. apply H. exists (String c t). split; [exact E|]. rewrite <- N. reflexivity.
Qed.
Definition imported (d : doc) (e : comp) : obj := set "defaults" (JObj (jmerge (jmerge (objAt (cmap e) "defaults") (objAt (d_map d) "params")) (d_params d))) (cmap e).
Lemma define_this d imp n e cs : named imp e n -> lookup n (define show d imp cs e) = Some (imported d e).
Proof.
  intros (t & E & ->). unfold define, mustStr. rewrite E. destruct t as [|c t]; [apply name_nonempty in E; contradiction|]. apply lookup_set_same.
Qed.
Lemma named_dec imp e n : named imp e n \/ ~ named imp e n.
Proof.
  destruct (getStr (cmap e) "custom_component.type") as [t|] eqn:E; [|right; intros (t & E' & _); congruence]. destruct (string_dec n (mustStr show imp ("alias." ++ t) t)) as [H|H]; [left; exists t; auto|right; intros (t' & E' & H'); assert (t' = t) by congruence; subst; contradiction].
Qed.
Lemma defines_other d imp n l : (forall e, In e l -> ~ named imp e n) -> forall cs, lookup n (fold_left (define show d imp) l cs) = lookup n cs.
Proof. induction l as [|e l IH]; intros H cs; cbn [fold_left]; [reflexivity|]. rewrite IH by (intros e' He'; apply H; right; exact He'). apply define_other, H. left; reflexivity. Qed.
Lemma defines_keep d imp n e l : (forall e', In e' l -> named imp e' n -> e' = e) -> forall cs, lookup n cs = Some (imported d e) -> lookup n (fold_left (define show d imp) l cs) = Some (imported d e).
Proof.
  induction l as [|x l IH]; intros HU cs H; cbn [fold_left]; [exact H|]. apply IH; [intros e' He'; apply HU; right; exact He'|].
  destruct (named_dec imp x n) as [HN|HN]; [rewrite (define_this _ _ _ _ _ HN), (HU x (or_introl eq_refl) HN); reflexivity|rewrite define_other by exact HN; exact H].
Qed.
Lemma defines_one d imp n e l : In e l -> named imp e n -> (forall e', In e' l -> named imp e' n -> e' = e) -> forall cs, lookup n (fold_left (define show d imp) l cs) = Some (imported d e).
Proof.
  intros HI HN HU cs. apply in_split in HI. destruct HI as (l1 & l2 & ->). rewrite fold_left_app. cbn [fold_left]. apply defines_keep; [intros e' He'; apply HU; apply in_or_app; right; right; exact He'|]. apply define_this, HN.
Qed.
Lemma Parse_ok fuel dm D : getStr dm "filename" = None -> Parse fuel dm = Ok D -> exists f st parts, fuel = S f /\ imports show files svgs shuffle (Parse f) (objs dm "imports") ([], []) = Ok st /\ each (create show hash (Make show hash f (fst st)) "part") (objs dm "parts") = Ok parts /\ D = mkDoc (idOf show hash dm) (fold_left (fun m p => addTo m "parts" (JObj (cmap p))) parts (del "parts" dm)) parts (populateAll parts) (fst st) (snd st).
Proof.
  intros E H. destruct fuel as [|f]; [discriminate|]. cbn [Docs.Parse] in H. unfold mustStr in H. rewrite E in H. destruct (imports _ _ _ _ _ _ _) as [st| | |] eqn:EI; try discriminate. cbn [bind] in H.
  destruct (each _ _) as [parts| | |] eqn:EP; try discriminate. cbn [bind] in H. injection H as <-. exists f, st, parts. auto.
Qed.
Lemma Parse_elems fuel : forall dm D, Parse fuel dm = Ok D -> d_elems D = populateAll (d_parts D).
Proof.
  induction fuel as [|f IH]; intros dm D H; [discriminate|]. destruct (getStr dm "filename") as [name|] eqn:E.
  - cbn [Docs.Parse] in H. unfold mustStr in H. rewrite E in H. destruct name as [|c name]; [apply name_nonempty in E; contradiction|]. destruct (files _); [|discriminate]. eapply IH, H.
  - destruct (Parse_ok _ _ _ E H) as (f' & st & parts & _ & _ & _ & ->). reflexivity.
Qed.
(** the elements listed are elements of the document; all of them if no two have the same id *)
Definition oneEach (d : doc) : Prop := forall e1 e2, element d e1 -> element d e2 -> cid e1 = cid e2 -> e1 = e2.
Lemma listed fuel dm D : Parse fuel dm = Ok D -> (forall e, In e (map snd (d_elems D)) -> element D e) /\ (oneEach D -> forall e, element D e -> In e (map snd (d_elems D))).
Proof.
  intros H. rewrite (Parse_elems _ _ _ H). destruct (populateAll_spec (d_parts D)) as [P1 P2]. split.
  - intros e He. apply in_map_iff in He. destruct He as ([i e'] & <- & He). apply In_lookup in He; [|apply populateAll_nodup]. apply P1 in He. apply He.
  - intros HO e (p & HP & HB). specialize (P2 p e HP HB). destruct (lookup (cid e) (populateAll (d_parts D))) as [e'|] eqn:E; [|contradiction]. pose proof (P1 _ _ E) as [EI (p' & HP' & HB')].
    rewrite (HO e e'); [|exists p; auto|exists p'; auto|auto]. apply lookup_In in E. apply in_map_iff. exists (cid e, e'). auto.
Qed.
Lemma imports_other f n l : (forall l, Permutation (shuffle l) l) -> (forall i, In i l -> ~ gives i n) -> forall st st', imports show files svgs shuffle (Parse f) l st = Ok st' -> lookup n (fst st') = lookup n (fst st).
Proof.
  intros SH. induction l as [|i l IH]; intros HG st st' H; cbn [imports] in H; [injection H as <-; reflexivity|]. destruct (import _ _ _ _ _ i st) as [st1| | |] eqn:E; try discriminate. cbn [bind] in H.
  rewrite (IH (fun j Hj => HG j (or_intror Hj)) _ _ H). clear H IH. unfold import in E. destruct st as [cs ps]. unfold mustStr in E.
  destruct (getStr i "type") as [t|] eqn:ET.
  - destruct (String.eqb_spec t "component") as [->|N1].
    + destruct (files _) as [m|] eqn:EF; [|discriminate]. destruct (Parse f m) as [d| | |] eqn:EP; try discriminate. cbn [bind] in E. injection E as <-. cbn [fst]. apply defines_other. intros e He HN. apply (HG i (or_introl eq_refl)).
      split; [right; exact ET|]. exists m, f, d, e. split; [exact EF|]. split; [exact EP|]. split; [|exact HN]. apply (listed _ _ _ EP). unfold AllElements in He. apply (Permutation_in _ (SH _)), He.
    + destruct (String.eqb t "svg"); [|injection E as <-; reflexivity]. destruct (svgs _); [|discriminate]. destruct (Docs.getStr show i "alias"); [|discriminate]. injection E as <-. reflexivity.
  - cbn [String.eqb Ascii.eqb Bool.eqb] in E. destruct (files _) as [m|] eqn:EF; [|discriminate]. destruct (Parse f m) as [d| | |] eqn:EP; try discriminate. cbn [bind] in E. injection E as <-. cbn [fst]. apply defines_other. intros e He HN. apply (HG i (or_introl eq_refl)).
    split; [left; exact ET|]. exists m, f, d, e. split; [exact EF|]. split; [exact EP|]. split; [|exact HN]. apply (listed _ _ _ EP). unfold AllElements in He. apply (Permutation_in _ (SH _)), He.
Qed.

(** A document is parsed only if every document it imports is; it then knows each custom component of an imported document under its name (or the alias given), as it was defined there,
    if no other element has that name: neither in the same document nor in one imported later. *)
Theorem C72_import fuel dm D pre imp post : (forall l, Permutation (shuffle l) l) -> getStr dm "filename" = None -> Parse fuel dm = Ok D -> objs dm "imports" = pre ++ imp :: post -> isComponent imp ->
  exists m f d, files (mustStr show imp "path" "") = Some m /\ Parse f m = Ok d /\   forall e n, oneEach d -> element d e -> named imp e n -> (forall e', element d e' -> named imp e' n -> e' = e) -> (forall i, In i post -> ~ gives i n) ->
      exists c, lookup n (d_customs D) = Some c /\ (forall k, k <> "defaults" -> lookup k c = lookup k (cmap e)) /\       (uobj (objAt (d_map d) "params") -> uobj (d_params d) -> exists o, lookup "defaults" c = Some (JObj o) /\          forall k v, ~ isMap v -> lookup k (objAt (d_map d) "params") = Some v -> lookup k (d_params d) = None -> lookup k o = Some v).
Proof.
  intros SH E H EI HC. destruct (Parse_ok _ _ _ E H) as (f & st & parts & -> & HI & HP & ->). rewrite EI, imports_app in HI. destruct (imports _ _ _ _ _ pre _) as [[cs ps]| | |]; try discriminate. cbn [bind imports] in HI.
  destruct (import _ _ _ _ _ imp _) as [st1| | |] eqn:E1; try discriminate. cbn [bind] in HI.
  assert (X : exists m d, files (mustStr show imp "path" "") = Some m /\ Parse f m = Ok d /\ st1 = (fold_left (define show d imp) (AllElements shuffle d) cs, ps)).
  { unfold import in E1. assert (T : mustStr show imp "type" "component" = "component") by (unfold mustStr; destruct HC as [-> | ->]; reflexivity). rewrite T in E1. cbn [String.eqb Ascii.eqb Bool.eqb] in E1.
    destruct (files _) as [m|]; [|discriminate]. destruct (Parse f m) as [d| | |] eqn:EP; try discriminate. cbn [bind] in E1. injection E1 as <-. exists m, d. auto. }
  destruct X as (m & d & EF & EP & ->). exists m, f, d. split; [exact EF|]. split; [exact EP|]. intros e n HO HE HN HU HG. cbn [d_customs]. rewrite (imports_other f n post SH HG _ _ HI). cbn [fst].
  exists (imported d e). split; [|split].
  - apply defines_one; [|exact HN|].
    + unfold AllElements. apply (Permutation_in _ (Permutation_sym (SH _))). apply (listed _ _ _ EP); assumption.
    + intros e' He' HN'. apply HU; [|exact HN']. apply (listed _ _ _ EP). apply (Permutation_in _ (SH _)), He'.
  - intros k Hk. unfold imported. apply lookup_set_other. auto.
  - intros U1 U2. eexists. split; [apply lookup_set_same|]. intros k v HV E2 E3. rewrite lookup_jmerge, E3, lookup_jmerge, E2 by assumption. f_equal. destruct v; try reflexivity. exfalso. apply HV. eexists; reflexivity.
Qed.

(** The drawing of an imported SVG file is a parameter under the alias given, which there must be. *)
Theorem C72_svg fuel dm D pre imp post : getStr dm "filename" = None -> Parse fuel dm = Ok D -> objs dm "imports" = pre ++ imp :: post -> getStr imp "type" = Some "svg" ->
  exists s v, svgs (mustStr show imp "path" "") = Some s /\ getStr imp "alias" = Some v /\
    ((forall i, In i post -> getStr i "type" = Some "svg" -> getStr i "alias" <> Some v) -> lookup v (d_params D) = Some (JStr s)).
Proof.
  intros E H EI HC. destruct (Parse_ok _ _ _ E H) as (f & st & parts & -> & HI & HP & ->). rewrite EI, imports_app in HI. destruct (imports _ _ _ _ _ pre _) as [[cs ps]| | |]; try discriminate. cbn [bind imports] in HI.
  destruct (import _ _ _ _ _ imp _) as [st1| | |] eqn:E1; try discriminate. cbn [bind] in HI. unfold import in E1. unfold mustStr in E1. rewrite HC in E1. cbn [String.eqb Ascii.eqb Bool.eqb] in E1.
  destruct (svgs _) as [s|] eqn:ES; [|discriminate]. destruct (Docs.getStr show imp "alias") as [v|] eqn:EA; [|discriminate]. injection E1 as <-. exists s, v. split; [reflexivity|]. split; [reflexivity|]. intros HN. cbn [d_params].
  assert (G : forall l st st', (forall i, In i l -> getStr i "type" = Some "svg" -> getStr i "alias" <> Some v) -> imports show files svgs shuffle (Parse f) l st = Ok st' -> lookup v (snd st') = lookup v (snd st)).
  { clear. induction l as [|i l IH]; intros st st' HG H; cbn [imports] in H; [injection H as <-; reflexivity|]. destruct (import _ _ _ _ _ i st) as [st1| | |] eqn:E; try discriminate. cbn [bind] in H. rewrite (IH _ _ (fun j Hj => HG j (or_intror Hj)) H).
    clear H IH. unfold import in E. destruct st as [cs ps]. unfold mustStr in E. specialize (HG i (or_introl eq_refl)). destruct (getStr i "type") as [t|] eqn:ET.
    - destruct (String.eqb_spec t "component") as [->|N1].
      + destruct (files _); [|discriminate]. destruct (Parse f _); try discriminate. cbn [bind] in E. injection E as <-. reflexivity.
      + destruct (String.eqb_spec t "svg") as [->|N2]; [|injection E as <-; reflexivity]. destruct (svgs _); [|discriminate]. destruct (Docs.getStr show i "alias") as [v'|]; [|discriminate]. injection E as <-. cbn [snd]. apply lookup_set_other.
        intros ->. apply HG; reflexivity.
    - cbn [String.eqb Ascii.eqb Bool.eqb] in E. destruct (files _); [|discriminate]. destruct (Parse f _); try discriminate. cbn [bind] in E. injection E as <-. reflexivity. }
  rewrite (G _ _ _ HN HI). cbn [snd]. apply lookup_set_same.
Qed.
End Files.

(** ** what goes wrong *)
Definition noShow (v : json) : string := "?".
Definition hash0 (m : obj) : string := "0123456789abcdef".
Definition dir (l : list (string * obj)) (name : string) : option obj := lookup name l.
Definition noSvg (name : string) : option string := None.
Notation parse72 fs sh := (Parse noShow hash0 (dir fs) noSvg sh).
(** A document that refers to itself, as its file or by an import, is never parsed. *)
Theorem C72_endless_refuted : (forall fuel, parse72 [("a", [("filename", JStr "a")])] (fun l => l) fuel [("filename", JStr "a")] = OutOfFuel) /\
  (forall fuel, parse72 [("a", [("imports", JArr [JObj [("path", JStr "a")]])])] (fun l => l) fuel [("imports", JArr [JObj [("path", JStr "a")]])] = OutOfFuel).
Proof.
  split; induction fuel as [|f IH]; try reflexivity; [exact IH|]. cbn [Parse]. cbn in *. rewrite IH. reflexivity.
Qed.
(** Two elements with one custom type: which of them is used depends on the order in which a map is visited. *)
Definition two (i j : string) : obj :=
  [("parts", JArr [JObj [("id", JStr i); ("custom_component", JObj [("type", JStr "leg")]); ("length", JOther 1)];
                   JObj [("id", JStr j); ("custom_component", JObj [("type", JStr "leg")]); ("length", JOther 2)]])].
Definition user72 : obj := [("imports", JArr [JObj [("path", JStr "legs")]])].
Definition known (fs : list (string * obj)) (sh : list comp -> list comp) (dm : obj) (t k : string) : option (option json) :=
  match parse72 fs sh 9 dm with Ok D => Some (match lookup t (d_customs D) with Some c => lookup k c | None => None end) | _ => None end.
Theorem C72_order_refuted : (forall l : list comp, Permutation l l) /\ (forall l : list comp, Permutation (rev l) l) /\
  known [("legs", two "x" "y")] (fun l => l) user72 "leg" "length" = Some (Some (JOther 2)) /\ known [("legs", two "x" "y")] (@rev comp) user72 "leg" "length" = Some (Some (JOther 1)).
Proof. split; [apply Permutation_refl|]. split; [intros l; apply Permutation_sym, Permutation_rev|]. split; reflexivity. Qed.
(** Elements with the same id hide each other: the custom component of the first is not known at all. *)
Definition hidden : obj :=
  [("parts", JArr [JObj [("id", JStr "x"); ("custom_component", JObj [("type", JStr "leg")]); ("length", JOther 1)];
                   JObj [("id", JStr "x"); ("custom_component", JObj [("type", JStr "arm")]); ("length", JOther 2)]])].
Theorem C72_same_id_refuted : known [("legs", hidden)] (fun l => l) user72 "leg" "length" = Some None /\ known [("legs", hidden)] (fun l => l) user72 "arm" "length" = Some (Some (JOther 2)).
Proof. split; reflexivity. Qed.
(** One entry that is not a map silently empties the list of parts or imports; so does a list that is not one; an import of an unknown kind is silently left out. *)
Theorem C72_malformed_refuted fs sh fuel dm l v : In v l -> ~ isMap v -> lookup "filename" dm = None -> (lookup "parts" dm = Some (JArr l) -> forall D, parse72 fs sh fuel dm = Ok D -> d_parts D = []) /\
  (lookup "imports" dm = Some (JArr l) -> forall D, parse72 fs sh fuel dm = Ok D -> d_customs D = [] /\ d_params D = []) /\
  (lookup "parts" dm = None -> lookup "imports" dm = Some (JArr [JObj [("type", JStr "SVG"); ("path", JStr "no such file")]]) -> exists D, parse72 fs sh (S fuel) dm = Ok D /\ d_params D = []).
Proof.
  intros HI HV EF. assert (A : allObjs l = None).
  { induction l as [|w l IH]; [destruct HI|]. cbn [allObjs]. destruct HI as [->|HI]; [destruct v; try reflexivity; exfalso; apply HV; eexists; reflexivity|]. rewrite (IH HI). destruct w; reflexivity. }
  assert (E : getStr noShow dm "filename" = None) by (unfold getStr; rewrite jget_plain, EF by reflexivity; reflexivity). split; [|split].
  - intros EL D H. destruct (Parse_ok _ _ _ _ _ _ _ _ E H) as (f & st & parts & _ & _ & HP & ->). unfold objs in HP. rewrite jget_plain, EL, A in HP by reflexivity. cbn [each] in HP. injection HP as <-. reflexivity.
  - intros EL D H. destruct (Parse_ok _ _ _ _ _ _ _ _ E H) as (f & st & parts & _ & HP & _ & ->). unfold objs in HP. rewrite jget_plain, EL, A in HP by reflexivity. cbn [imports] in HP. injection HP as <-. auto.
  - intros EP EI. cbn [Parse]. unfold mustStr. rewrite E. unfold objs. rewrite !jget_plain, EP, EI by reflexivity. eexists. split; reflexivity.
Qed.

(** ** examples *)
(** a box that refers to a file that refers to another *)
Definition box72 : obj := [("filename", JStr "base"); ("params", JObj [("width", JOther 7)]); ("imports", JArr [JObj [("path", JStr "c")]])].
Definition base72 : obj := [("params", JObj [("width", JOther 5); ("height", JOther 6)]); ("filename", JStr "root"); ("units", JStr "mm")].
Definition root72 : obj := [("units", JStr "in"); ("params", JObj [("depth", JOther 4); ("height", JOther 9)]); ("imports", JArr [JObj [("path", JStr "a")]; JObj [("path", JStr "b")]])].
Definition dir72 : list (string * obj) := [("base", base72); ("root", root72); ("a", []); ("b", []); ("c", [])].
Example C72_files_hypotheses : links noShow (dir dir72) box72 [base72; root72] /\ Forall (fun d => uobj d) [box72; base72; root72] /\ Forall goodImports [box72; base72; root72].
Proof.
  split; [|split].
  - eapply links_more; [reflexivity|reflexivity|]. eapply links_more; [reflexivity|reflexivity|]. apply links_end. reflexivity.
  - repeat constructor; cbn; intuition discriminate.
  - apply Forall_cons; [right; exists [JObj [("path", JStr "c")]], [[("path", JStr "c")]]; split; reflexivity|]. apply Forall_cons; [left; reflexivity|]. apply Forall_cons; [right; eexists; eexists; split; reflexivity|]. apply Forall_nil.
Qed.
(** checking agreement by computation *)
Fixpoint okAgree (n : nat) (a b : obj) : bool :=
  match n with
  | O => false
  | S n => forallb (fun e => match lookup (fst e) b with
                             | None => true
                             | Some w => match snd e, w with JObj o, JObj o' => okAgree n o o' | JObj _, _ | _, JObj _ => false | _, _ => true end
                             end) a
  end.
Lemma okAgree_ok n : forall a b, okAgree n a b = true -> forall k, agree a b k.
Proof.
  induction n as [|n IH]; intros a b H k r v w H1 H2; [discriminate|]. cbn [okAgree] in H. rewrite forallb_forall in H.
  assert (HK : forall x, lookup k a = Some x -> match lookup k b with None => true | Some w => match x, w with JObj o, JObj o' => okAgree n o o' | JObj _, _ | _, JObj _ => false | _, _ => true end end = true).
  { intros x Ex. apply (H (k, x)), lookup_In, Ex. }
  destruct r as [|k2 r].
  - rewrite jwalk_one in H1, H2. specialize (HK _ H1). rewrite H2 in HK. unfold isMap. destruct v, w; try discriminate; split; intros (o & E); try discriminate; eexists; reflexivity.
  - rewrite jwalk_cons in H1, H2. destruct (lookup k a) as [[]|] eqn:EA; try discriminate. destruct (lookup k b) as [[]|] eqn:EB; try discriminate. specialize (HK _ eq_refl). cbn beta iota in HK. exact (IH _ _ HK k2 r _ _ H1 H2).
Qed.
Example C72_files_agree : forall k a b, plain k -> In a [box72; base72; root72] -> In b [box72; base72; root72] -> agree a b k.
Proof.
  intros k a b _ HA HB. apply (okAgree_ok 5). cbn [In] in HA, HB. repeat destruct HA as [HA|HA]; try contradiction; repeat destruct HB as [HB|HB]; try contradiction; subst a b; reflexivity.
Qed.
Example C72_files_example : match parse72 dir72 (fun l => l) 9 box72 with Ok D => map (jget (d_map D)) ["params.width"; "params.height"; "params.depth"; "units"; "filename"] | _ => [] end =
  [Some (JOther 7); Some (JOther 6); Some (JOther 4); Some (JStr "mm"); None].
Proof. reflexivity. Qed.
Example C72_unreadable_example : broken noShow (dir [("base", base72)]) box72 /\ uobj box72.
Proof. split; [eapply broken_later; [reflexivity|reflexivity|]; eapply broken_here; reflexivity|repeat constructor; cbn; intuition discriminate]. Qed.
(** a chair that imports legs, under another name, and a drawing *)
Definition legs72 : obj := [("params", JObj [("thick", JOther 3)]); ("parts", JArr [JObj [("id", JStr "p"); ("components", JArr [JObj [("type", JStr "draw"); ("id", JStr "q"); ("custom_component", JObj [("type", JStr "leg")]); ("length", JOther 1)]])]])].
Definition chair72 : obj := [("imports", JArr [JObj [("path", JStr "legs"); ("alias", JObj [("leg", JStr "chair_leg")])]; JObj [("type", JStr "svg"); ("path", JStr "s"); ("alias", JStr "seat")]])].
Definition doc72 : option doc := match Parse noShow hash0 (dir [("legs", legs72)]) (fun _ => Some "M 0 0 L 1 1") (fun l => l) 9 chair72 with Ok D => Some D | _ => None end.
Definition part72 : option doc := match Parse noShow hash0 (dir [("legs", legs72)]) (fun _ => Some "M 0 0 L 1 1") (fun l => l) 9 legs72 with Ok D => Some D | _ => None end.
Example C72_import_example : match doc72 with Some D => (option_map (fun c => (lookup "length" c, jget c "defaults.thick")) (lookup "chair_leg" (d_customs D)), lookup "leg" (d_customs D), lookup "seat" (d_params D)) | None => (None, None, None) end =
  (Some (Some (JOther 1), Some (JOther 3)), None, Some (JStr "M 0 0 L 1 1")).
Proof. reflexivity. Qed.
Example C72_import_hypotheses : exists d p e, part72 = Some d /\ d_parts d = [p] /\ ckids p = [e] /\ ckids e = [] /\ cid p <> cid e /\ named noShow [("alias", JObj [("leg", JStr "chair_leg")])] e "chair_leg" /\
  ~ named noShow [("alias", JObj [("leg", JStr "chair_leg")])] p "chair_leg".
Proof.
  eexists. eexists. eexists. split; [vm_compute; reflexivity|]. repeat (split; [reflexivity|]). split; [discriminate|]. split; [exists "leg"; split; reflexivity|]. intros (t & E & _). discriminate.
Qed.
Example C72_malformed_hypotheses : In (JStr "part") [JObj []; JStr "part"] /\ ~ isMap (JStr "part") /\ lookup "filename" [("parts", JArr [JObj []; JStr "part"])] = None /\
  match parse72 [] (fun l => l) 3 [("parts", JArr [JObj []; JStr "part"])] with Ok D => Some (d_parts D) | _ => None end = Some [].
Proof. split; [right; left; reflexivity|]. split; [intros (o & E); discriminate|]. split; reflexivity. Qed.
