(** C87: points and flags are read from attributes as they are written. *)
From Coq Require Import String Ascii List ZArith Bool Arith Lia.
From Coq.Floats Require Import SpecFloat.
From Verif Require Import Num FloatNum PathModel DrawModel DynModel ParamModel AttrRead Prop_C31 Prop_C32.
Import ListNotations.
Local Open Scope string_scope.

(** *** what is written *)
Definition has (c : ascii) (s : string) : Prop := In c (list_ascii_of_string s).
(** two texts with a comma between them, and no other comma *)
Definition pairOf (s a c : string) : Prop := s = a ++ "," ++ c /\ ~ has ","%char a /\ ~ has ","%char c.
(** the words for yes and no, in small and capital letters *)
Definition sameLetter (a b : ascii) : Prop := a = b \/ (65 <= nat_of_ascii a <= 90 /\ nat_of_ascii b = nat_of_ascii a + 32).
Definition says (w s : string) : Prop := Forall2 sameLetter (list_ascii_of_string s) (list_ascii_of_string w).
Definition flagWord (t : bool) (s : string) : Prop :=
  exists w, In w (if t then ["true"; "t"; "yes"; "y"; "on"] else ["false"; "f"; "no"; "n"; "off"]) /\ says w s.

Lemma nodollar s : ~ has "$"%char s -> dollar s = false.
Proof. destruct s as [|c s]; [reflexivity|]. cbn. destruct (Ascii.eqb_spec c "$"); [intros H; exfalso; apply H; left; auto|reflexivity]. Qed.
Lemma plain_iff s : plain s = true <-> ~ has " "%char s /\ ~ has ","%char s /\ ~ has "$"%char s.
Proof.
  unfold has. induction s as [|c s IH]; cbn [plain list_ascii_of_string].
  - split; [intros _; repeat split; intros []|reflexivity].
  - rewrite andb_true_iff, negb_true_iff, !orb_false_iff, IH. cbn [In].
    destruct (Ascii.eqb_spec c " "); destruct (Ascii.eqb_spec c ","); destruct (Ascii.eqb_spec c "$"); subst; intuition congruence.
Qed.
Lemma split_none s : ~ has ","%char s -> splitCommas s = [s].
Proof.
  unfold has. induction s as [|c s IH]; intros H; [reflexivity|]. cbn in H |- *. destruct (Ascii.eqb_spec c ","); [exfalso; apply H; auto|]. rewrite IH by tauto. reflexivity.
Qed.
Lemma split_pair s a c : pairOf s a c -> splitCommas s = [a; c].
Proof.
  intros (-> & Ha & Hc). induction a as [|x a IH]; cbn.
  - rewrite split_none by auto. reflexivity.
  - unfold has in Ha. cbn in Ha. destruct (Ascii.eqb_spec x ","); [exfalso; apply Ha; auto|]. specialize (IH ltac:(unfold has; tauto)). cbn in IH. rewrite IH. reflexivity.
Qed.
Lemma has_app c a b : has c b -> has c (a ++ b).
Proof. unfold has. induction a as [|x a IH]; cbn; auto. Qed.

Section Read.
Context (L : Lang) (h : heap) (b : attr) (cursor : string -> option (spec_float * spec_float)).

(** A point written "x,y": each side is evaluated, with the parameters of the elements around. *)
Theorem C87_pair f p s a c x y : ~ has "$"%char p -> attrLookup f h b p 0 = Ok (Some (VStr s)) -> pairOf s a c ->
  (attrPoint L (S f) h cursor b p = Ok (Some (x, y)) <-> ToFloat64 L f h (at_elem b) (VStr a) = Ok (Some x) /\ ToFloat64 L f h (at_elem b) (VStr c) = Ok (Some y)).
Proof.
  intros D E PO. cbn [attrPoint]. rewrite nodollar, E by auto. cbn [bind toPointWith entries].
  assert (ES : attrString L f h b p = Ok (s, true)).
  { unfold attrString. rewrite E. cbn [bind ToString]. destruct (plain s) eqn:EP; [|reflexivity].
    apply plain_iff in EP. exfalso. apply (proj1 (proj2 EP)). destruct PO as (-> & _). apply has_app. left. reflexivity. }
  rewrite ES. cbn [bind fst]. rewrite (split_pair s a c PO).
  destruct (ToFloat64 L f h (at_elem b) (VStr a)) as [[u|]| | |]; cbn [bind]; try (split; [discriminate|intros [H _]; discriminate]).
  destruct (ToFloat64 L f h (at_elem b) (VStr c)) as [[v|]| | |]; cbn [bind]; try (split; [discriminate|intros [_ H]; discriminate]).
  split; [intros H; split; congruence|intros [H1 H2]; congruence].
Qed.

(** A point written as a map with x and y. *)
Theorem C87_map f p v l vx vy x y : ~ has "$"%char p -> attrLookup f h b p 0 = Ok (Some v) -> entries h v = Some l -> mapGet h l "x" = Some vx -> mapGet h l "y" = Some vy ->
  (attrPoint L (S f) h cursor b p = Ok (Some (x, y)) <-> ToFloat64 L f h (at_elem b) vx = Ok (Some x) /\ ToFloat64 L f h (at_elem b) vy = Ok (Some y)).
Proof.
  intros D E EL EX EY. cbn [attrPoint]. rewrite nodollar, E by auto. cbn [bind]. unfold toPointWith. rewrite EL, EX, EY. fold (ToFloat64 L f h (at_elem b)). unfold ToFloat64.
  destruct (toFloatWith L _ vx) as [[u|]| | |]; cbn [bind]; try (split; [discriminate|intros [H _]; discriminate]).
  destruct (toFloatWith L _ vy) as [[w|]| | |]; cbn [bind]; try (split; [discriminate|intros [_ H]; discriminate]).
  split; [intros H; split; congruence|intros [H1 H2]; congruence].
Qed.

(** A point written with $ in front of a word is what the cursor gives for it. *)
Theorem C87_cursor f p s : ~ has "$"%char p -> attrLookup (S f) h b p 0 = Ok (Some (VStr (String "$" s))) -> ~ has ","%char s ->
  attrPoint L (S (S f)) h cursor b p = Ok (cursor (String "$" s)).
Proof.
  intros D E NC. cbn [attrPoint]. rewrite nodollar, E by auto. cbn [bind toPointWith entries].
  assert (ES : attrString L (S f) h b p = Ok (String "$" s, true)) by (unfold attrString; rewrite E; reflexivity).
  rewrite ES. cbn [bind fst]. rewrite split_none by (unfold has; cbn; intros [H|H]; [discriminate|contradiction]).
  destruct (String.eqb_spec (String "$" s) p) as [<-|_]; [exfalso; apply D; left; reflexivity|]. reflexivity.
Qed.

(** Any other text is no point: neither one with more than one comma, nor one without that stands for nothing. *)
Lemma split_count s : List.length (splitCommas s) = S (count_occ ascii_dec (list_ascii_of_string s) ","%char).
Proof.
  induction s as [|c s IH]; [reflexivity|]. cbn [splitCommas list_ascii_of_string count_occ]. destruct (Ascii.eqb_spec c ",") as [->|N].
  - destruct (ascii_dec "," ","); [cbn; rewrite IH; reflexivity|congruence].
  - destruct (ascii_dec c ","); [congruence|]. destruct (splitCommas s) as [|w ws]; [discriminate|exact IH].
Qed.
Theorem C87_no_point f p s : ~ has "$"%char p -> attrLookup f h b p 0 = Ok (Some (VStr s)) -> 2 <= count_occ ascii_dec (list_ascii_of_string s) ","%char ->
  attrPoint L (S f) h cursor b p = Ok None.
Proof.
  intros D E PO. cbn [attrPoint]. rewrite nodollar, E by auto. cbn [bind toPointWith entries].
  assert (ES : attrString L f h b p = Ok (s, true)).
  { unfold attrString. rewrite E. cbn [bind ToString]. destruct (plain s) eqn:EP; [|reflexivity].
    apply plain_iff in EP. exfalso. apply (proj1 (proj2 EP)). unfold has. rewrite (count_occ_In ascii_dec). lia. }
  rewrite ES. cbn [bind fst]. pose proof (split_count s) as LN. destruct (splitCommas s) as [|w1 [|w2 [|w3 ws]]]; cbn in LN; try lia. reflexivity.
Qed.

(** A point written as an angle and a length starts from the point given. *)
Theorem C87_polar tr f p v l from angle length : attrPoint L f h cursor b p = Ok None -> attrLookup f h b p 0 = Ok (Some v) -> entries h v = Some l ->
  attrFloat64 L f h b (p ++ ".angle") = Ok (Some angle) -> attrFloat64 L f h b (p ++ ".length") = Ok (Some length) ->
  attrPoint2 L tr f h cursor b p from = Ok (Some (@NewPoint FNum
    (@add FNum (@mul FNum length (ncos tr (@mul FNum (@div FNum (npi tr) (@ofZ FNum 180)) angle))) (px from))
    (@add FNum (@mul FNum length (nsin tr (@mul FNum (@div FNum (npi tr) (@ofZ FNum 180)) angle))) (py from)))).
Proof. intros EP E EL EA EN. unfold attrPoint2. rewrite EP. cbn [bind]. rewrite E. cbn [bind]. rewrite EL, EA. cbn [bind]. rewrite EN. reflexivity. Qed.
Theorem C87_straight tr f p from x y : attrPoint L f h cursor b p = Ok (Some (x, y)) -> attrPoint2 L tr f h cursor b p from = Ok (Some (@NewPoint FNum x y)).
Proof. intros E. unfold attrPoint2. rewrite E. reflexivity. Qed.

End Read.

(** *** flags *)
Lemma lower_letter c s : exists d, lower (String c s) = String d (lower s) /\ (forall e, nat_of_ascii e > 96 -> d = e -> sameLetter c e).
Proof.
  cbn [lower]. eexists. split; [reflexivity|]. intros e He. unfold sameLetter.
  destruct (Nat.leb_spec 65 (nat_of_ascii c)); cbn [andb]; [|auto]. destruct (Nat.leb_spec (nat_of_ascii c) 90); [|auto].
  intros <-. right. split; [lia|]. rewrite nat_ascii_embedding; lia.
Qed.
Lemma lower_same c e : sameLetter c e -> nat_of_ascii e > 96 -> (let n := nat_of_ascii c in if (Nat.leb 65 n && Nat.leb n 90)%bool then ascii_of_nat (n + 32) else c) = e.
Proof.
  intros [->|[B E]] H; cbn zeta.
  - destruct (Nat.leb_spec (nat_of_ascii e) 90); [lia|]. rewrite andb_false_r. reflexivity.
  - destruct (Nat.leb_spec 65 (nat_of_ascii c)); [|lia]. destruct (Nat.leb_spec (nat_of_ascii c) 90); [|lia]. cbn [andb]. rewrite <- E. apply ascii_nat_embedding.
Qed.
Lemma says_lower w : Forall (fun e => nat_of_ascii e > 96) (list_ascii_of_string w) -> forall s, says w s <-> lower s = w.
Proof.
  unfold says. induction w as [|e w IH]; intros F [|c s]; cbn [list_ascii_of_string] in *.
  - split; [reflexivity|constructor].
  - split; [intros H; inversion H|discriminate].
  - split; [intros H; inversion H|discriminate].
  - inversion F as [|? ? Fe Fw]; subst. split.
    + intros H. inversion H as [|? ? ? ? S1 S2]; subst. cbn [lower]. f_equal; [apply lower_same; auto|apply IH; auto].
    + destruct (lower_letter c s) as (d & E & Q). rewrite E. intros H. injection H as H1 H2. constructor; [apply Q; auto|apply IH; auto].
Qed.
Lemma words_small : Forall (fun w => Forall (fun e => nat_of_ascii e > 96) (list_ascii_of_string w)) ["true"; "t"; "yes"; "y"; "on"; "false"; "f"; "no"; "n"; "off"].
Proof. repeat (constructor; [cbn; repeat (constructor; [vm_compute; lia|]); constructor|]). constructor. Qed.
Lemma ToBool_word s t : ToBool (VStr s) = Some t <-> flagWord t s.
Proof.
  pose proof words_small as W. rewrite Forall_forall in W. unfold flagWord.
  assert (EX : forall ws, incl ws ["true"; "t"; "yes"; "y"; "on"; "false"; "f"; "no"; "n"; "off"] -> existsb (String.eqb (lower s)) ws = true <-> exists w, In w ws /\ says w s).
  { intros ws I. rewrite existsb_exists. split; intros (w & Hw & H); exists w; (split; [exact Hw|]).
    - apply String.eqb_eq in H. apply says_lower; auto.
    - apply String.eqb_eq. apply says_lower; auto. }
  pose proof (EX ["true"; "t"; "yes"; "y"; "on"] ltac:(intros w; cbn; tauto)) as E1. pose proof (EX ["false"; "f"; "no"; "n"; "off"] ltac:(intros w; cbn; tauto)) as E2.
  cbn [ToBool]. destruct (existsb (String.eqb (lower s)) ["true"; "t"; "yes"; "y"; "on"]) eqn:B1.
  - destruct t; [split; [intros _; apply E1; reflexivity|reflexivity]|]. split; [discriminate|]. intros H. apply E2 in H.
    apply existsb_exists in B1, H. destruct B1 as (w & Hw & Ew), H as (w2 & Hw2 & Ew2). apply String.eqb_eq in Ew, Ew2. rewrite Ew in Ew2. subst w2.
    cbn in Hw, Hw2. exfalso. clear -Hw Hw2. intuition congruence.
  - destruct (existsb (String.eqb (lower s)) ["false"; "f"; "no"; "n"; "off"]) eqn:B2; (destruct t; [split; [discriminate|intros H; apply E1 in H; discriminate]|]).
    + split; [intros _; apply E2; reflexivity|reflexivity].
    + split; [discriminate|]. intros H. apply E2 in H. discriminate.
Qed.

Section Flags.
Context (L : Lang) (h : heap) (b : attr).
(** A flag is true exactly for the words for yes and false exactly for the words for no, if the word is not itself the name of a parameter around. *)
Theorem C87_flag f p s t : attrLookup f h b p 0 = Ok (Some (VStr s)) -> Lookup f h (at_elem b) s = Ok None -> (attrBool L f h b p = Ok (Some t) <-> flagWord t s).
Proof.
  intros E NL. rewrite <- ToBool_word. unfold attrBool, attrString. rewrite E. cbn [bind]. unfold ToString. destruct (plain s); [rewrite NL|]; cbn [bind fst snd];
    (split; [intros H; congruence|intros ->; reflexivity]).
Qed.
(** A truth value is read as it is, if there is no parameter called true or false. *)
Theorem C87_truth f p t def : attrLookup f h b p 0 = Ok (Some (VBool t)) -> sprint L (VBool t) = (if t then "true" else "false") ->
  Lookup f h (at_elem b) (if t then "true" else "false") = Ok None -> attrBool L f h b p = Ok (Some t) /\ attrMustBool L f h b p def = Ok t.
Proof.
  intros E SP NL. assert (B : attrBool L f h b p = Ok (Some t)).
  { unfold attrBool, attrString. rewrite E. cbn [bind]. unfold ToString. rewrite SP. destruct t; cbn [plain]; cbn; rewrite NL; reflexivity. }
  split; [exact B|]. unfold attrMustBool. rewrite B. reflexivity.
Qed.
(** A flag that nobody gives is the default. *)
Theorem C87_missing f p def : attrLookup f h b p 0 = Ok None -> attrMustBool L f h b p def = Ok def.
Proof. intros E. unfold attrMustBool, attrBool, attrString. rewrite E. reflexivity. Qed.
End Flags.
Print Assumptions C87_pair. Print Assumptions C87_map. Print Assumptions C87_cursor. Print Assumptions C87_no_point. Print Assumptions C87_polar.
Print Assumptions C87_straight. Print Assumptions C87_flag. Print Assumptions C87_truth. Print Assumptions C87_missing.

(** *** an edge in a document of width 3, with its points written in all these ways *)
Definition edge : heap := mkHeap 6 (fun a => match a with
  | 0 => [("params", VMap 1)]
  | 1 => [("width", VInt 3); ("t", VInt 5); ("leg", VMap 3)]
  | 2 => [("from", VStr "1,width"); ("to", VMap 3); ("corner", VMap 4); ("start", VStr "$cursor"); ("reverse", VStr "Yes"); ("auto", VBool true); ("bad", VStr "1,2,3"); ("mirror", VStr "t"); ("knee", VStr "leg")]
  | 3 => [("angle", VInt 90); ("length", VStr "width")]
  | 4 => [("x", VStr "width"); ("y", VInt 1)]
  | _ => [] end).
Definition edgeAttr : attr := mkAttr (Child (mkElem None 2 None None) (Root (mkElem None 0 None None))) 2.
Definition one : spec_float := floatOfZ 1.
Definition edgeLang : Lang := mkLang
  (fun s => if String.eqb s "1" then Some (EConst (VFloat one)) else if String.eqb s "width" then Some (EVar "width") else None)
  (fun _ _ => None) (fun _ _ _ => None) (fun _ => None) (fun v => match v with VBool t => if t then "true" else "false" | VInt 5 => "5" | _ => "" end) (fun _ _ => VNil).
Definition edgeCursor (s : string) : option (spec_float * spec_float) := if String.eqb s "$cursor" then Some (one, one) else None.
Example C87_pair_example : attrLookup 30 edge edgeAttr "from" 0 = Ok (Some (VStr "1,width")) /\ pairOf "1,width" "1" "width" /\
  ToFloat64 edgeLang 30 edge (at_elem edgeAttr) (VStr "1") = Ok (Some one) /\ ToFloat64 edgeLang 30 edge (at_elem edgeAttr) (VStr "width") = Ok (Some (floatOfZ 3)) /\
  attrPoint edgeLang 31 edge edgeCursor edgeAttr "from" = Ok (Some (one, floatOfZ 3)).
Proof.
  split; [vm_compute; reflexivity|]. split; [split; [reflexivity|]; split; unfold has; cbn; intuition discriminate|].
  split; [vm_compute; reflexivity|]. split; vm_compute; reflexivity.
Qed.
Example C87_map_example : attrLookup 30 edge edgeAttr "corner" 0 = Ok (Some (VMap 4)) /\ entries edge (VMap 4) = Some [("x", VStr "width"); ("y", VInt 1)] /\
  attrPoint edgeLang 31 edge edgeCursor edgeAttr "corner" = Ok (Some (floatOfZ 3, one)).
Proof. split; [vm_compute; reflexivity|]. split; vm_compute; reflexivity. Qed.
Example C87_cursor_example : attrLookup 30 edge edgeAttr "start" 0 = Ok (Some (VStr "$cursor")) /\ attrPoint edgeLang 31 edge edgeCursor edgeAttr "start" = Ok (Some (one, one)).
Proof. split; vm_compute; reflexivity. Qed.
Example C87_no_point_example : attrLookup 30 edge edgeAttr "bad" 0 = Ok (Some (VStr "1,2,3")) /\ count_occ ascii_dec (list_ascii_of_string "1,2,3") ","%char = 2.
Proof. split; vm_compute; reflexivity. Qed.
Example C87_polar_example : attrPoint edgeLang 30 edge edgeCursor edgeAttr "to" = Ok None /\ attrLookup 30 edge edgeAttr "to" 0 = Ok (Some (VMap 3)) /\
  attrFloat64 edgeLang 30 edge edgeAttr "to.angle" = Ok (Some (floatOfZ 90)) /\ attrFloat64 edgeLang 30 edge edgeAttr "to.length" = Ok (Some (floatOfZ 3)) /\
  attrPoint edgeLang 30 edge edgeCursor edgeAttr "corner" = Ok (Some (floatOfZ 3, one)).
Proof. split; [vm_compute; reflexivity|]. split; [vm_compute; reflexivity|]. split; [vm_compute; reflexivity|]. split; vm_compute; reflexivity. Qed.
Example C87_flag_example : attrLookup 30 edge edgeAttr "reverse" 0 = Ok (Some (VStr "Yes")) /\ Lookup 30 edge (at_elem edgeAttr) "Yes" = Ok None /\ flagWord true "Yes" /\
  attrLookup 30 edge edgeAttr "auto" 0 = Ok (Some (VBool true)) /\ Lookup 30 edge (at_elem edgeAttr) "true" = Ok None /\ attrLookup 30 edge edgeAttr "other" 0 = Ok None.
Proof.
  split; [vm_compute; reflexivity|]. split; [vm_compute; reflexivity|]. split; [apply (proj1 (ToBool_word _ _)); reflexivity|]. split; [vm_compute; reflexivity|]. split; vm_compute; reflexivity.
Qed.

(** *** violations *)
(** Finding: the flag "t" of the edge is lost because the document has a parameter called t (say, a thickness); the default false is used instead. *)
Theorem C87_flag_refuted : flagWord true "t" /\ Get edge (at_mp edgeAttr) "mirror" = Some (VStr "t") /\
  attrBool edgeLang 30 edge edgeAttr "mirror" = Ok None /\ attrMustBool edgeLang 30 edge edgeAttr "mirror" false = Ok false.
Proof. split; [apply (proj1 (ToBool_word _ _)); reflexivity|]. split; [vm_compute; reflexivity|]. split; vm_compute; reflexivity. Qed.
Print Assumptions C87_flag_refuted.
(** Finding: a point with x and y may be a parameter that the attribute names, but not one with an angle and a length: the attribute "knee" names
    the parameter "leg" of the document, whose map is found, and no point comes out. *)
Theorem C87_polar_refuted tr from : attrLookup 30 edge edgeAttr "knee" 0 = Ok (Some (VMap 3)) /\ attrLookup 30 edge edgeAttr "to" 0 = Ok (Some (VMap 3)) /\
  (exists q, attrPoint2 edgeLang tr 30 edge edgeCursor edgeAttr "to" from = Ok (Some q)) /\ attrPoint2 edgeLang tr 30 edge edgeCursor edgeAttr "knee" from = Ok None.
Proof.
  split; [vm_compute; reflexivity|]. split; [vm_compute; reflexivity|]. split.
  - destruct C87_polar_example as (E1 & E2 & E3 & E4 & _). eexists. apply (C87_polar edgeLang edge edgeAttr edgeCursor tr 30 "to" (VMap 3) [("angle", VInt 90); ("length", VStr "width")] from (floatOfZ 90) (floatOfZ 3)); first [assumption|reflexivity].
  - unfold attrPoint2. assert (E1 : attrPoint edgeLang 30 edge edgeCursor edgeAttr "knee" = Ok None) by (vm_compute; reflexivity).
    assert (E2 : attrLookup 30 edge edgeAttr "knee" 0 = Ok (Some (VMap 3))) by (vm_compute; reflexivity).
    assert (E3 : attrFloat64 edgeLang 30 edge edgeAttr ("knee" ++ ".angle") = Ok None) by (vm_compute; reflexivity).
    rewrite E1. cbn [bind]. rewrite E2. cbn [bind entries]. rewrite E3. reflexivity.
Qed.
Print Assumptions C87_polar_refuted.
