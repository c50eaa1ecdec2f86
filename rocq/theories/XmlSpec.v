(** A reader of XML text, to say what a written document is: elements with attributes in double quotes, text, comments and declarations.
    It knows no entities: a text or value with an ampersand is not read. Text that is blank is left out. *)
From Coq Require Import String Ascii List Bool.
Import ListNotations.
Local Open Scope string_scope.

Inductive node : Type := Elem (name : string) (attrs : list (string * string)) (children : list node) | Text (s : string).

Definition blank (c : ascii) : bool := Ascii.eqb c " " || Ascii.eqb c "009" || Ascii.eqb c "010" || Ascii.eqb c "013".
Definition quote : ascii := "034".
Fixpoint allBlank (s : string) : bool := match s with "" => true | String c r => blank c && allBlank r end.
Definition chr (c : ascii) : string := String c "".

(** what is being read *)
Inductive mode : Type :=
| MText (t : string)                                  (* text, so far t *)
| MLt                                                 (* after < *)
| MName (n : string)                                  (* the name of an element *)
| MTag (n : string) (a : list (string * string))      (* between attributes *)
| MAttr (n : string) (a : list (string * string)) (k : string)
| MEq (n : string) (a : list (string * string)) (k : string)
| MVal (n : string) (a : list (string * string)) (k v : string)
| MAfter (n : string) (a : list (string * string))    (* after a value *)
| MEmpty (n : string) (a : list (string * string))    (* after the / of an empty element *)
| MClose (n : string)                                 (* the name after </ *)
| MDecl | MDeclEnd                                    (* <? and the ? that may end it *)
| MBang | MBang1 | MCom | MCom1 | MCom2               (* <! <!- <!-- and the - and -- that may end it *)
| MFail.
(** an element that is not closed yet: its name, attributes and children so far; the innermost first, the document last *)
Notation frame := (string * list (string * string) * list node)%type.
Notation state := (mode * list frame)%type.
Definition fail : state := (MFail, []).
(** a child for the innermost element *)
Definition child (x : node) (fs : list frame) : list frame := match fs with (n, a, k) :: r => (n, a, (k ++ [x])%list) :: r | [] => [] end.
Definition addText (t : string) (fs : list frame) : list frame := if allBlank t then fs else child (Text t) fs.

Definition step (c : ascii) (st : state) : state :=
  let '(m, fs) := st in
  match m with
  | MText t => if Ascii.eqb c "<" then (match fs with [_] => if allBlank t then (MLt, fs) else fail | _ => (MLt, addText t fs) end) else if Ascii.eqb c "&" then fail else (MText (t ++ chr c), fs)
  | MLt => if Ascii.eqb c "/" then (MClose "", fs) else if Ascii.eqb c "?" then (MDecl, fs) else if Ascii.eqb c "!" then (MBang, fs)
           else if blank c || Ascii.eqb c "<" || Ascii.eqb c ">" || Ascii.eqb c "=" || Ascii.eqb c quote then fail else (MName (chr c), fs)
  | MName n => if blank c then (MTag n [], fs) else if Ascii.eqb c ">" then (MText "", (n, [], []) :: fs) else if Ascii.eqb c "/" then (MEmpty n [], fs)
               else if Ascii.eqb c "<" || Ascii.eqb c "=" || Ascii.eqb c quote || Ascii.eqb c "&" then fail else (MName (n ++ chr c), fs)
  | MTag n a => if blank c then (MTag n a, fs) else if Ascii.eqb c ">" then (MText "", (n, a, []) :: fs) else if Ascii.eqb c "/" then (MEmpty n a, fs)
                else if Ascii.eqb c "<" || Ascii.eqb c "=" || Ascii.eqb c quote || Ascii.eqb c "&" then fail else (MAttr n a (chr c), fs)
  | MAttr n a k => if Ascii.eqb c "=" then (MEq n a k, fs) else if blank c || Ascii.eqb c "<" || Ascii.eqb c ">" || Ascii.eqb c "/" || Ascii.eqb c quote || Ascii.eqb c "&" then fail else (MAttr n a (k ++ chr c), fs)
  | MEq n a k => if Ascii.eqb c quote then (MVal n a k "", fs) else fail
  | MVal n a k v => if Ascii.eqb c quote then (MAfter n (a ++ [(k, v)])%list, fs) else if Ascii.eqb c "<" || Ascii.eqb c "&" then fail else (MVal n a k (v ++ chr c), fs)
  | MAfter n a => if blank c then (MTag n a, fs) else if Ascii.eqb c ">" then (MText "", (n, a, []) :: fs) else if Ascii.eqb c "/" then (MEmpty n a, fs) else fail
  | MEmpty n a => if Ascii.eqb c ">" then (MText "", child (Elem n a []) fs) else fail
  | MClose n => if Ascii.eqb c ">" then (match fs with (n', a, k) :: _ :: _ => if String.eqb n n' then (MText "", child (Elem n' a k) (tl fs)) else fail | _ => fail end)
                else if blank c || Ascii.eqb c "<" || Ascii.eqb c "/" || Ascii.eqb c "=" || Ascii.eqb c quote || Ascii.eqb c "&" then fail else (MClose (n ++ chr c), fs)
  | MDecl => if Ascii.eqb c "?" then (MDeclEnd, fs) else (MDecl, fs)
  | MDeclEnd => if Ascii.eqb c ">" then (MText "", fs) else if Ascii.eqb c "?" then (MDeclEnd, fs) else (MDecl, fs)
  | MBang => if Ascii.eqb c "-" then (MBang1, fs) else fail
  | MBang1 => if Ascii.eqb c "-" then (MCom, fs) else fail
  | MCom => if Ascii.eqb c "-" then (MCom1, fs) else (MCom, fs)
  | MCom1 => if Ascii.eqb c "-" then (MCom2, fs) else (MCom, fs)
  | MCom2 => if Ascii.eqb c ">" then (MText "", fs) else fail
  | MFail => fail
  end.
Fixpoint run (st : state) (s : string) : state := match s with "" => st | String c r => run (step c st) r end.
(** A document: one element, and nothing but blanks, comments and declarations around it. *)
Definition readXml (s : string) : option node :=
  match run (MText "", [("", [], [])]) s with
  | (MText t, [(_, _, [Elem n a k])]) => if allBlank t then Some (Elem n a k) else None
  | _ => None
  end.

Example readXml_ex : readXml "<a x=""1""><b/>hi<c y=""2"" z=""3"">there</c></a>" = Some (Elem "a" [("x", "1")] [Elem "b" [] []; Text "hi"; Elem "c" [("y", "2"); ("z", "3")] [Text "there"]]).
Proof. reflexivity. Qed.
Example readXml_ex_open : readXml "<a><b></a>" = None. Proof. reflexivity. Qed.
Example readXml_ex_two : readXml "<a/><b/>" = None. Proof. reflexivity. Qed.
Example readXml_ex_decl : readXml "<?xml version=""1.0""?> <!-- a - b --> <a/>" = Some (Elem "a" [] []). Proof. reflexivity. Qed.

Lemma run_app st s t : run st (s ++ t) = run (run st s) t.
Proof. revert st. induction s as [|c s IH]; intros st; [reflexivity|]. cbn [append run]. apply IH. Qed.
Lemma run_fail s : run fail s = fail. Proof. induction s as [|c s IH]; [reflexivity|]. exact IH. Qed.
Definition okVal (c : ascii) : bool := negb (Ascii.eqb c quote || Ascii.eqb c "<" || Ascii.eqb c "&").
Definition okText (c : ascii) : bool := negb (Ascii.eqb c "<" || Ascii.eqb c "&").
Fixpoint every (p : ascii -> bool) (s : string) : bool := match s with "" => true | String c r => p c && every p r end.
Lemma append_chr v c s : (v ++ chr c) ++ s = v ++ String c s.
Proof. induction v as [|d v IH]; [reflexivity|]. cbn [append]. rewrite IH. reflexivity. Qed.
Lemma append_nil s : s ++ "" = s. Proof. induction s as [|c s IH]; [reflexivity|]. cbn [append]. rewrite IH. reflexivity. Qed.
Lemma run_val n a k v fs s : every okVal s = true -> run (MVal n a k v, fs) s = (MVal n a k (v ++ s), fs).
Proof.
  revert v. induction s as [|c s IH]; intros v H; [rewrite append_nil; reflexivity|]. cbn [every] in H. apply andb_prop in H. destruct H as [H1 H2]. unfold okVal in H1. apply negb_true_iff, orb_false_elim in H1. destruct H1 as [H1 H3]. apply orb_false_elim in H1. destruct H1 as [H0 H1].
  cbn [run step]. rewrite H0, H1, H3. cbn [orb]. rewrite IH by exact H2. rewrite append_chr. reflexivity.
Qed.
Lemma run_text t fs s : every okText s = true -> run (MText t, fs) s = (MText (t ++ s), fs).
Proof.
  revert t. induction s as [|c s IH]; intros v H; [rewrite append_nil; reflexivity|]. cbn [every] in H. apply andb_prop in H. destruct H as [H1 H2]. unfold okText in H1. apply negb_true_iff, orb_false_elim in H1. destruct H1 as [H1 H3].
  cbn [run step]. rewrite H1, H3. rewrite IH by exact H2. rewrite append_chr. reflexivity.
Qed.
Lemma every_app p s t : every p (s ++ t) = every p s && every p t.
Proof. induction s as [|c s IH]; [reflexivity|]. cbn [append every]. rewrite IH. apply andb_assoc. Qed.
Lemma every_impl (p q : ascii -> bool) s : (forall c, p c = true -> q c = true) -> every p s = true -> every q s = true.
Proof. intros H. induction s as [|c s IH]; [reflexivity|]. cbn [every]. intros E. apply andb_prop in E. destruct E as [E1 E2]. rewrite (H c E1), (IH E2). reflexivity. Qed.
(** one attribute, after the tag was opened or between attributes *)
Lemma run_attr n a fs k c v : run (MTag n a, fs) (String c k ++ "=") = (MEq n a (String c k), fs) -> every okVal v = true ->
  run (MTag n a, fs) (String c k ++ "=" ++ String quote "" ++ v ++ String quote "") = (MAfter n (a ++ [(String c k, v)])%list, fs).
Proof.
  intros H Hv. rewrite !run_app in *. rewrite H. change (run (MEq n a (String c k), fs) (String quote "")) with (MVal n a (String c k) "", fs). rewrite run_val by exact Hv. reflexivity.
Qed.
