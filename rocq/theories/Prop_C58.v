(** C58: path text is read as the commands it spells. *)
From Coq Require Import String Ascii List ZArith NArith Bool Reals Lra Lia.
From Verif Require Import Num RealNum FloatNum PathModel DrawModel SvgParse PathSpec GeomSpec PathProofs TextProofs SvgProofs SvgText BezierProofs Prop_C39 Witness.
Import ListNotations.
Local Open Scope string_scope.

(** ** decimal numbers and their text *)
Record dec := Dec { d_neg : bool; d_int : list nat; d_frac : option (list nat) }.
Definition digits (l : list nat) : string := fold_right (fun d s => String (ascii_of_nat (48 + d)) s) "" l.
Definition dec_text (d : dec) : string :=
  (if d_neg d then "-" else "") ++ digits (d_int d) ++ match d_frac d with None => "" | Some f => "." ++ digits f end.
Definition frac (d : dec) : list nat := match d_frac d with None => [] | Some f => f end.
Definition num (l : list nat) : N := fold_left (fun v d => 10 * v + N.of_nat d)%N l 0%N.
Definition dec_val (d : dec) : R := ((if d_neg d then -1 else 1) * IZR (Z.of_N (num (d_int d ++ frac d))) / 10 ^ List.length (frac d))%R.
Definition dec_ok (d : dec) : Prop := Forall (fun x => x < 10)%nat (d_int d) /\ Forall (fun x => x < 10)%nat (frac d) /\ (d_int d <> [] \/ frac d <> []).

(** ** commands; [rel] = counted from the current position (lower case letter) *)
Inductive cmd (A : Type) : Type :=
| CMove (rel : bool) (x y : A)
| CLine (rel : bool) (x y : A)
| CCurve (rel : bool) (x1 y1 x2 y2 x y : A)
| CSmooth (rel : bool) (x2 y2 x y : A)
| CClose.
Arguments CMove {A}. Arguments CLine {A}. Arguments CCurve {A}. Arguments CSmooth {A}. Arguments CClose {A}.
Definition letter {A} (c : cmd A) : ascii :=
  match c with
  | CMove rel _ _ => if rel then "m" else "M" | CLine rel _ _ => if rel then "l" else "L"
  | CCurve rel _ _ _ _ _ _ => if rel then "c" else "C" | CSmooth rel _ _ _ _ => if rel then "s" else "S" | CClose => "Z"
  end%char.
Definition numbers {A} (c : cmd A) : list A :=
  match c with
  | CMove _ x y => [x; y] | CLine _ x y => [x; y] | CCurve _ a b c d x y => [a; b; c; d; x; y] | CSmooth _ c d x y => [c; d; x; y] | CClose => []
  end.

(** ** the text of commands: what stands before the letter, and before each number *)
Record spaced := Spaced { before : string; command : cmd dec; gaps : list string }.
Definition cmd_text (s : spaced) : string :=
  before s ++ String (letter (command s)) (fold_right (fun gd t => fst gd ++ dec_text (snd gd) ++ t) "" (combine (gaps s) (numbers (command s)))).
Definition text (l : list spaced) (after : string) : string := fold_right (fun s t => cmd_text s ++ t) after l.

(** blanks and commas *)
Definition blank (s : string) : Prop := all_ch (fun c => existsb (Ascii.eqb c) [" "; ","; "010"; "009"; "013"]%char) s = true.
(** Between two numbers there is a blank or comma; between the letter and the first number there need not be, unless the number is negative; before a letter there need not be, unless
    the previous command is Z. *)
Definition gaps_ok (gs : list string) (ds : list dec) : Prop :=
  List.length gs = List.length ds /\ Forall blank gs /\ Forall dec_ok ds /\
  match gs, ds with g :: gr, d :: _ => (d_neg d = true -> g <> "") /\ Forall (fun g => g <> "") gr | _, _ => True end.
Fixpoint spacing_ok (close : bool) (l : list spaced) : Prop :=
  match l with
  | [] => True
  | s :: r => blank (before s) /\ (close = true -> before s <> "") /\ gaps_ok (gaps s) (numbers (command s)) /\
              spacing_ok (match command s with CClose => true | _ => false end) r
  end.

(** ** what the commands draw *)
Local Open Scope R_scope.
Definition here (p : path RNum) : Pt RNum := match rev p with [] => pnt 0 0 | g :: _ => send g end.
Definition at_ (rel : bool) (p : path RNum) (x y : dec) : Pt RNum :=
  if rel then pnt (X (here p) + dec_val x) (Y (here p) + dec_val y) else pnt (dec_val x) (dec_val y).
(** the mirror image of the last control point, if the last piece is a curve *)
Definition mirrored (p : path RNum) : Pt RNum :=
  match rev p with Curve _ _ e ce :: _ => pnt (2 * X e - X ce) (2 * Y e - Y ce) | _ => here p end.
Definition draws (p : path RNum) (c : cmd dec) : path RNum :=
  (p ++ match c with
        | CMove rel x y => [Move (here p) (at_ rel p x y)]
        | CLine rel x y => [Line (here p) (at_ rel p x y)]
        | CCurve rel a b c d x y => [Curve (here p) (at_ rel p a b) (at_ rel p x y) (at_ rel p c d)]
        | CSmooth rel c d x y => [Curve (here p) (mirrored p) (at_ rel p x y) (at_ rel p c d)]
        | CClose => []
        end)%list.

(** ** reading numbers *)
Lemma dch_digit d : (d < 10)%nat -> isDigit (ascii_of_nat (48 + d)) = true /\ digitVal (ascii_of_nat (48 + d)) = N.of_nat d.
Proof. intros H. do 10 (destruct d as [|d]; [split; reflexivity|]). lia. Qed.
Lemma digits_read l : Forall (fun x => x < 10)%nat l -> forall rest v k, readDigits (digits l ++ rest) v k = readDigits rest (fold_left (fun v d => 10 * v + N.of_nat d)%N l v) (k + List.length l)%nat.
Proof.
  induction 1 as [|d l Hd Hl IH]; intros rest v k; [cbn; rewrite Nat.add_0_r; reflexivity|]. destruct (dch_digit d Hd) as [E1 E2]. cbn [digits fold_right append]. cbn [readDigits]. rewrite E1, E2. change (fold_right _ "" l) with (digits l). rewrite IH. cbn [fold_left List.length].
  replace (v * 10 + N.of_nat d)%N with (10 * v + N.of_nat d)%N by lia. replace (S k + List.length l)%nat with (k + S (List.length l))%nat by lia. reflexivity.
Qed.
Lemma digits_chars l : Forall (fun x => x < 10)%nat l -> all_ch isDigit (digits l) = true.
Proof. induction 1 as [|d l Hd Hl IH]; [reflexivity|]. cbn [digits fold_right all_ch]. rewrite (proj1 (dch_digit d Hd)). exact IH. Qed.

Definition tailText (d : dec) : string := match d_frac d with None => "" | Some f => "." ++ digits f end.
Lemma app_empty_r s : s ++ "" = s. Proof. induction s as [|c s IH]; [reflexivity|]. cbn. rewrite IH. reflexivity. Qed.
Lemma app_assoc_s s t u : (s ++ t) ++ u = s ++ (t ++ u). Proof. induction s as [|c s IH]; [reflexivity|]. cbn. rewrite IH. reflexivity. Qed.
Lemma readUnsigned_dec neg d : dec_ok d -> readUnsigned neg (digits (d_int d) ++ tailText d) = Some (NTdec neg (num (d_int d ++ frac d)) (- Z.of_nat (List.length (frac d)))).
Proof.
  intros (H1 & H2 & H3). unfold readUnsigned. rewrite (digits_read _ H1). unfold tailText, frac in *. destruct (d_frac d) as [f|].
  - cbn [append]. cbn [readDigits]. change (isDigit ".") with false. cbv iota beta. rewrite <- (app_empty_r (digits f)), (digits_read _ H2). cbn [readDigits]. rewrite !Nat.add_0_l.
    destruct (Nat.eqb_spec (List.length (d_int d) + List.length f) 0) as [E|E]; [exfalso; destruct (d_int d), f; cbn in E; try discriminate; destruct H3; congruence|].
    unfold num. rewrite fold_left_app. reflexivity.
  - cbn [readDigits]. destruct (Nat.eqb_spec (0 + List.length (d_int d) + 0) 0) as [E|E]; [exfalso; destruct (d_int d); cbn in E; try discriminate; destruct H3; congruence|].
    rewrite app_nil_r. reflexivity.
Qed.
(** the first character of an unsigned number *)
Lemma dec_first d : dec_ok d -> exists c r, (digits (d_int d) ++ tailText d)%string = String c r /\ (isDigit c = true \/ c = "."%char).
Proof.
  intros (H1 & H2 & H3). unfold tailText, frac in *. destruct (d_int d) as [|x l].
  - destruct (d_frac d) as [f|]; [|destruct H3; congruence]. cbn. eauto.
  - inversion H1; subst. cbn [digits fold_right append]. do 2 eexists. split; [reflexivity|]. left. apply dch_digit. assumption.
Qed.
Lemma readNumber_dec d : dec_ok d -> readNumber (dec_text d) = Some (NTdec (d_neg d) (num (d_int d ++ frac d)) (- Z.of_nat (List.length (frac d)))).
Proof.
  intros H. unfold dec_text. change (match d_frac d with None => "" | Some f => "." ++ digits f end) with (tailText d).
  destruct (dec_first d H) as (c & r & E & Hc). pose proof (readUnsigned_dec (d_neg d) d H) as Hr.
  assert (W : isInfWord (lower (String c r)) = false /\ String.eqb (lower (String c r)) "nan" = false).
  { destruct Hc as [Hc | ->]; [apply lower_digit_not_word; exact Hc|split; reflexivity]. }
  destruct W as [W1 W2]. destruct (d_neg d); cbn [append].
  - rewrite E in *. cbn [readNumber]. rewrite W1. exact Hr.
  - rewrite E in *. assert (NS : c <> "-"%char /\ c <> "+"%char). { destruct Hc as [Hc | ->]; [|split; discriminate]. apply digit_cases in Hc. repeat destruct Hc as [Hc|Hc]; subst; split; discriminate. }
    destruct NS as [N1 N2]. transitivity (if isInfWord (lower (String c r)) then Some (NTspecial (FTinf false)) else if String.eqb (lower (String c r)) "nan" then Some (NTspecial FTnan) else readUnsigned false (String c r)).
    + unfold readNumber. destruct c as [[] [] [] [] [] [] [] []]; try reflexivity; congruence.
    + rewrite W1, W2. exact Hr.
Qed.
Lemma ToFloat64_dec d : dec_ok d -> ToFloat64 (N := RNum) (dec_text d) = Some (Fin (dec_val d)).
Proof.
  intros H. unfold ToFloat64. rewrite (readNumber_dec d H). cbn. unfold er_ofdec, dec_val. do 2 f_equal. rewrite powerRZ_neg'. rewrite <- pow_powerRZ. reflexivity.
Qed.

(** ** the items of the text *)
Lemma blank_chars s : blank s -> all_ch blankCh s = true.
Proof. unfold blank. apply all_ch_impl. intros c. destruct c as [[] [] [] [] [] [] [] []]; cbv; auto. Qed.
Lemma dec_chars d : dec_ok d -> all_ch decCh (dec_text d) = true.
Proof.
  intros (H1 & H2 & _). unfold dec_text, frac in *. rewrite !all_ch_app. rewrite (digits_dec _ (digits_chars _ H1)). destruct (d_neg d); destruct (d_frac d) as [f|]; cbn [all_ch append andb]; try reflexivity; rewrite (digits_dec _ (digits_chars _ H2)); reflexivity.
Qed.
Lemma decCh_edge c : decCh c = true -> blankCh c = false /\ isAlpha c = false.
Proof. destruct c as [[] [] [] [] [] [] [] []]; cbv; auto; discriminate. Qed.
Lemma dec_solid_chars s : all_ch decCh s = true -> solid s = true.
Proof.
  induction s as [|c s IH]; intros H; [reflexivity|]. cbn [all_ch] in H. apply andb_prop in H. destruct H as [Hc Hs]. cbn [solid]. destruct (decCh_edge c Hc) as [-> Ac]. rewrite (IH Hs).
  destruct s as [|d s]; [reflexivity|]. cbn [all_ch] in Hs. apply andb_prop in Hs. destruct Hs as [Hd _]. destruct (decCh_edge d Hd) as [_ Ad]. cbn [edge]. rewrite Ac, Ad, andb_false_r. reflexivity.
Qed.
Lemma digits_last l : Forall (fun x => x < 10)%nat l -> l <> [] -> exists u c, digits l = u ++ String c "" /\ isNumCh c = true.
Proof.
  induction 1 as [|d l Hd Hl IH]; intros NE; [congruence|]. destruct l as [|e l].
  - exists "", (ascii_of_nat (48 + d)). split; [reflexivity|]. unfold isNumCh. rewrite (proj1 (dch_digit d Hd)). reflexivity.
  - destruct IH as (u & c & E & Hc); [discriminate|]. exists (String (ascii_of_nat (48 + d)) u), c. split; [|exact Hc]. change (digits (d :: e :: l)) with (String (ascii_of_nat (48 + d)) (digits (e :: l))). rewrite E. reflexivity.
Qed.
Lemma dec_last d : dec_ok d -> exists u c, dec_text d = u ++ String c "" /\ isNumCh c = true.
Proof.
  intros (H1 & H2 & H3). unfold dec_text, frac in *. destruct (d_frac d) as [f|].
  - destruct f as [|x f].
    + exists ((if d_neg d then "-" else "") ++ digits (d_int d)), "."%char. split; [|reflexivity]. rewrite app_assoc_s. reflexivity.
    + destruct (digits_last _ H2) as (u & c & E & Hc); [discriminate|]. exists ((if d_neg d then "-" else "") ++ digits (d_int d) ++ "." ++ u), c. split; [|exact Hc]. rewrite E. rewrite !app_assoc_s. reflexivity.
  - destruct (digits_last _ H1) as (u & c & E & Hc); [destruct H3; auto|]. exists ((if d_neg d then "-" else "") ++ u), c. split; [|exact Hc]. rewrite E, app_empty_r, app_assoc_s. reflexivity.
Qed.
Lemma dec_text_nonempty d : dec_ok d -> dec_text d <> "".
Proof. intros H. destruct (dec_last d H) as (u & c & -> & _). destruct u; discriminate. Qed.

(** [t] can follow a number ([close] = false) or a Z *)
Definition ready (close : bool) (t : string) : Prop :=
  match t with "" => True | String d _ => blankCh d = true \/ close = false /\ isAlpha d = true end.
Lemma ready_blank b g t : blank g -> g <> "" -> ready b (g ++ t).
Proof. intros H NE. apply blank_chars in H. destruct g as [|c g]; [congruence|]. cbn [all_ch] in H. apply andb_prop in H. left. apply H. Qed.
Lemma ready_ends d t : dec_ok d -> ready false t -> ends_before (dec_text d) t.
Proof.
  intros H R. destruct t as [|e t]; [exact I|]. destruct R as [R|[_ R]]; [left; exact R|right]. destruct (dec_last d H) as (u & c & E & Hc). exists u, c. split; [exact E|]. cbn [edge]. rewrite Hc, R. apply orb_true_r.
Qed.
Definition nums (gs : list string) (ds : list dec) (t : string) : string := fold_right (fun gd t => fst gd ++ dec_text (snd gd) ++ t) t (combine gs ds).
Lemma nums_app gs ds t : nums gs ds "" ++ t = nums gs ds t.
Proof. unfold nums. induction (combine gs ds) as [|x l IH]; [reflexivity|]. cbn [fold_right]. rewrite !app_assoc_s, IH. reflexivity. Qed.
Lemma cuts_num d t : dec_ok d -> ready false t -> cuts (dec_text d ++ t) = dec_text d :: cuts t.
Proof. intros H R. apply cuts_item; [apply dec_text_nonempty; exact H|apply dec_solid_chars, dec_chars; exact H|apply ready_ends; auto]. Qed.
Lemma cuts_nums ds : forall gs t, List.length gs = List.length ds -> Forall blank gs -> Forall dec_ok ds -> Forall (fun g => g <> "") gs -> ready false t ->
  cuts (nums gs ds t) = (map dec_text ds ++ cuts t)%list /\ ready false (nums gs ds t).
Proof.
  induction ds as [|d ds IH]; intros gs t L B D NE R; destruct gs as [|g gs]; try discriminate L; [split; [reflexivity|exact R]|].
  inversion B; inversion D; inversion NE; subst. injection L as L. destruct (IH gs t L) as [E R']; auto. change (nums (g :: gs) (d :: ds) t) with (g ++ dec_text d ++ nums gs ds t). split.
  - rewrite cuts_blank by (apply blank_chars; assumption). rewrite cuts_num by auto. rewrite E. reflexivity.
  - apply ready_blank; auto.
Qed.
Lemma letter_alpha (c : cmd dec) : isAlpha (letter c) = true. Proof. destruct c; try destruct rel; reflexivity. Qed.
Lemma letter_solid (c : cmd dec) : solid (String (letter c) "") = true. Proof. destruct c; try destruct rel; reflexivity. Qed.
Definition closes (c : cmd dec) : bool := match c with CClose => true | _ => false end.
Lemma cuts_cmd s t : blank (before s) -> gaps_ok (gaps s) (numbers (command s)) -> ready (closes (command s)) t ->
  cuts (cmd_text s ++ t) = (String (letter (command s)) "" :: map dec_text (numbers (command s)) ++ cuts t)%list.
Proof.
  intros B (L & Bg & D & G) R. unfold cmd_text. change (fold_right _ "" _) with (nums (gaps s) (numbers (command s)) ""). rewrite app_assoc_s, cuts_blank by (apply blank_chars; exact B).
  cbn [append]. rewrite nums_app. change (String (letter (command s)) ?x) with (String (letter (command s)) "" ++ x).
  destruct (gaps s) as [|g gr] eqn:EG; destruct (numbers (command s)) as [|d dr] eqn:ED; try discriminate L.
  - change (nums [] [] t) with t. rewrite cuts_item; [reflexivity|discriminate|apply letter_solid|]. assert (EC : closes (command s) = true) by (destruct (command s); try discriminate ED; reflexivity).
    rewrite EC in R. destruct t as [|e t]; [exact I|]. destruct R as [R|[R _]]; [left; exact R|discriminate].
  - destruct G as [G1 G2]. inversion Bg; inversion D; subst. injection L as L. assert (EC : closes (command s) = false) by (destruct (command s); try discriminate ED; reflexivity). rewrite EC in R.
    destruct (cuts_nums dr gr t L) as [E R']; auto. change (nums (g :: gr) (d :: dr) t) with (g ++ dec_text d ++ nums gr dr t).
    rewrite cuts_item; [|discriminate|apply letter_solid|].
    + rewrite cuts_blank by (apply blank_chars; assumption). rewrite cuts_num by auto. rewrite E. reflexivity.
    + destruct g as [|e g].
      * destruct (d_neg d) eqn:EN; [exfalso; apply G1; auto|]. cbn [append]. unfold dec_text. rewrite EN. cbn [append]. change (match d_frac d with None => "" | Some f => String "." (digits f) end) with (tailText d).
        destruct (dec_first d) as (c & r & E1 & Hc); [assumption|]. rewrite E1. cbn [append]. right. exists "", (letter (command s)). split; [reflexivity|]. cbn [edge]. rewrite letter_alpha. unfold isNumCh.
        destruct Hc as [-> | ->]; reflexivity.
      * left. assert (X : all_ch blankCh (String e g) = true) by (apply blank_chars; assumption). cbn [all_ch] in X. apply andb_prop in X. apply X.
Qed.
Lemma cuts_text l after : blank after -> forall close, spacing_ok close l -> cuts (text l after) = flat_map (fun s => String (letter (command s)) "" :: map dec_text (numbers (command s))) l /\ ready close (text l after).
Proof.
  intros A. induction l as [|s l IH]; intros close H.
  - cbn. split; [|destruct after as [|c a]; [exact I|left]; apply blank_chars in A; cbn [all_ch] in A; apply andb_prop in A; apply A]. rewrite <- (app_empty_r after), cuts_blank by (apply blank_chars; exact A). reflexivity.
  - destruct H as (B & C & G & H). destruct (IH _ H) as [E R]. cbn [text fold_right]. change (fold_right _ after l) with (text l after). split.
    + rewrite cuts_cmd by auto. rewrite E. reflexivity.
    + unfold cmd_text. rewrite app_assoc_s. destruct (before s) as [|e b] eqn:EB.
      * cbn [append]. right. split; [destruct close; [exfalso; apply C; auto|reflexivity]|apply letter_alpha].
      * apply blank_chars in B. cbn [all_ch] in B. apply andb_prop in B. left. apply B.
Qed.

(** ** executing the items *)
Lemma gnf_cons k d r : dec_ok d -> getNextFloats (N := RNum) (S k) (dec_text d :: r) = match getNextFloats (N := RNum) k r with None => None | Some (xs, r') => Some (Fin (dec_val d) :: xs, r') end.
Proof. intros H. cbn [getNextFloats]. rewrite (ToFloat64_dec d H). reflexivity. Qed.
Lemma here_pos p : CurrentPosition (N := RNum) p = here p.
Proof.
  unfold CurrentPosition, here. destruct p as [|g p]; [apply NewPoint_fin|]. destruct (exists_last (l := g :: p) ltac:(discriminate)) as (i & z & ->). rewrite rev_unit. rewrite last_last. destruct (i ++ [z])%list eqn:E; [destruct i; discriminate|reflexivity].
Qed.
Lemma here_finite p : Forall finiteSeg p -> finitePt (here p).
Proof. intros H. unfold here. apply Forall_rev in H. destruct H as [|g r Hg _]; [apply finitePt_pnt|]. destruct g; apply Hg. Qed.
Lemma abs_at p x y : Forall finiteSeg p -> ToAbsPosition p (NewPoint (Fin (dec_val x) : T RNum) (Fin (dec_val y))) = at_ true p x y.
Proof.
  intros H. pose proof (here_finite p H) as F. unfold ToAbsPosition. rewrite here_pos, NewPoint_fin, (px_fin _ F), (py_fin _ F). unfold pnt at 1 2. cbn [px py]. fin. apply NewPoint_fin.
Qed.
Lemma Tail_rev (p : path RNum) : Tail p = match rev p with [] => None | g :: _ => Some g end.
Proof. destruct p as [|g p]; [reflexivity|]. destruct (exists_last (l := g :: p) ltac:(discriminate)) as (i & z & ->). rewrite rev_unit. apply Tail_snoc. Qed.
Lemma smooth_draws p c d : Forall finiteSeg p -> SmoothCurveTo p c d = (p ++ [Curve (here p) (mirrored p) d c])%list.
Proof.
  intros H. pose proof (here_finite p H) as F. unfold SmoothCurveTo, CurveTo. rewrite here_pos, Tail_rev. unfold mirrored.
  assert (E : NewPoint (px (here p)) (py (here p)) = here p) by (rewrite (px_fin _ F), (py_fin _ F), NewPoint_fin; symmetry; exact F). rewrite E.
  apply Forall_rev in H. unfold here in F |- *. destruct (rev p) as [|g r]; [reflexivity|]. destruct g as [| |s cs e ce]; try reflexivity. cbn [send] in *. pose proof (Forall_inv H) as HG. destruct HG as (F0 & F1 & F2 & Fc).
  rewrite (px_fin _ F), (py_fin _ F), (px_fin _ Fc), (py_fin _ Fc). fin. rewrite NewPoint_fin. assert (Q : forall a b : R, (a + (a - b) = 2 * a - b)%R) by (intros; ring). rewrite !Q. reflexivity.
Qed.
Lemma draws_finite p c : Forall finiteSeg p -> Forall finiteSeg (draws p c).
Proof.
  intros H. pose proof (here_finite p H) as F. assert (A : forall rel x y, finitePt (at_ rel p x y)) by (intros []; intros; apply finitePt_pnt).
  assert (M : finitePt (mirrored p)) by (unfold mirrored; destruct (rev p) as [|[] ?]; auto; apply finitePt_pnt).
  unfold draws. apply Forall_app. split; [exact H|]. destruct c; repeat constructor; auto.
Qed.
Lemma next_draws p c r : Forall finiteSeg p -> Forall dec_ok (numbers c) -> next (N := RNum) (String (letter c) "" :: map dec_text (numbers c) ++ r) p = Ok (r, draws p c).
Proof.
  intros H D. pose proof (here_finite p H) as F. destruct c as [rel x y|rel x y|rel a b c d x y|rel c d x y|]; cbn [letter numbers map app] in *;
    repeat match goal with X : Forall dec_ok (_ :: _) |- _ => inversion X; clear X; subst end; unfold draws; [destruct rel|destruct rel|destruct rel|destruct rel|].
  all: cbn [next]; rewrite ?gnf_cons by assumption; cbn [getNextFloats]; rewrite ?NewPoint_fin; unfold RelMoveTo, RelLineTo, RelCurveTo, RelSmoothCurveTo, MoveTo, LineTo, CurveTo.
  all: rewrite <- ?NewPoint_fin, ?abs_at by exact H; rewrite ?smooth_draws by exact H; rewrite ?here_pos, ?NewPoint_fin, ?app_nil_r; reflexivity.
Qed.
Lemma loop_draws l : forall fuel p, Forall finiteSeg p -> Forall (fun s => Forall dec_ok (numbers (command s))) l ->
  let its := flat_map (fun s => String (letter (command s)) "" :: map dec_text (numbers (command s))) l in
  (List.length its <= fuel)%nat -> parse_loop (N := RNum) fuel its p = Ok (fold_left draws (map command l) p).
Proof.
  induction l as [|s l IH]; intros fuel p H D its L; [destruct fuel; reflexivity|]. inversion D; subst. unfold its in *. cbn [flat_map] in *. rewrite <- app_comm_cons in *. destruct fuel as [|f]; [cbn in L; lia|].
  cbn [parse_loop]. rewrite next_draws by auto. cbn [bind map fold_left]. apply IH; [apply draws_finite; exact H|assumption|]. cbn [List.length] in L. rewrite app_length in L. lia.
Qed.
Lemma spacing_dec l : forall close, spacing_ok close l -> Forall (fun s => Forall dec_ok (numbers (command s))) l.
Proof. induction l as [|s l IH]; intros close H; [constructor|]. destruct H as (_ & _ & (_ & _ & D & _) & H). constructor; eauto. Qed.

(** Reading the text of any list of commands (M m L l C c S s and Z), with decimal numbers of any length, spaced in any way that keeps to the
    rules above, draws exactly those commands.  Missing from the full claim: Z draws nothing ([C58_close_refuted]); a negative number directly after the letter
    is lost ([C58_minus_refuted]); the other SVG commands and exponents are rejected or misread. *)
Theorem C58_reads_partial : forall (l : list spaced) (after : string), spacing_ok false l -> blank after ->
  ParsePathFromSvg (N := RNum) (text l after) = Ok (fold_left draws (map command l) []).
Proof.
  intros l after H A. unfold ParsePathFromSvg. rewrite normalise_cuts. destruct (cuts_text l after A false H) as [-> _]. apply loop_draws; [constructor|eapply spacing_dec; exact H|auto].
Qed.

(** "M1.5 2l -3,.25C0 0 1 1,2 2s.5 1 3 -4Z m 5 5": a path written tightly *)
Definition ds (i : list nat) : dec := Dec false i None.
Definition ex58 : list spaced :=
  [ Spaced "" (CMove false (Dec false [1] (Some [5])) (ds [2])) [""; " "];
    Spaced "" (CLine true (Dec true [3] None) (Dec false [] (Some [2; 5]))) [" "; ","];
    Spaced "" (CCurve false (ds [0]) (ds [0]) (ds [1]) (ds [1]) (ds [2]) (ds [2])) [""; " "; " "; " "; ","; " "];
    Spaced "" (CSmooth true (Dec false [] (Some [5])) (ds [1]) (ds [3]) (Dec true [4] None)) [""; " "; " "; " "];
    Spaced "" CClose []; Spaced " " (CMove true (ds [5]) (ds [5])) [" "; " "] ]%nat.
Lemma ex58_ok : spacing_ok false ex58.
Proof.
  unfold ex58. cbn [spacing_ok before command gaps numbers]. unfold gaps_ok, blank, dec_ok, frac, ds. cbn [d_int d_frac d_neg List.length].
  repeat match goal with |- _ /\ _ => split | |- Forall _ _ => constructor | |- _ -> _ => intro end; try reflexivity; try discriminate; try exact I; try lia; try (left; discriminate); try (right; discriminate).
Qed.
Example C58_reads_example : text ex58 "" = "M1.5 2l -3,.25C0 0 1 1,2 2s.5 1 3 -4Z m 5 5" /\ spacing_ok false ex58 /\
  exists p, ParsePathFromSvg (N := RNum) "M1.5 2l -3,.25C0 0 1 1,2 2s.5 1 3 -4Z m 5 5" = Ok p /\ List.length p = 5%nat /\
    nth 3 p (Move (pnt 0 0) (pnt 0 0)) = Curve (pnt 2 2) (pnt 3 3) (pnt 5 (-2)) (pnt 2.5 3) /\ here p = pnt 10 3.
Proof.
  split; [reflexivity|]. split; [exact ex58_ok|]. exists (fold_left draws (map command ex58) []). split; [|split; [reflexivity|]].
  - change "M1.5 2l -3,.25C0 0 1 1,2 2s.5 1 3 -4Z m 5 5"%string with (text ex58 ""). apply C58_reads_partial; [exact ex58_ok|reflexivity].
  - assert (V : forall neg i f, dec_val (Dec neg i (Some f)) = (if neg then -1 else 1) * IZR (Z.of_N (num (i ++ f))) / 10 ^ List.length f) by reflexivity.
    assert (V0 : forall neg i, dec_val (Dec neg i None) = (if neg then -1 else 1) * IZR (Z.of_N (num i)) / 1) by (intros; unfold dec_val, frac; cbn [d_neg d_int d_frac List.length pow]; rewrite app_nil_r; reflexivity).
    cbn [fold_left map ex58 command]. unfold ds. cbn [draws app mirrored at_ here rev send nth]. rewrite ?V, ?V0, ?pnt_X, ?pnt_Y. cbn [num fold_left app List.length pow].
    split; [do 1 f_equal|]; unfold pnt; repeat f_equal; cbn; lra.
Qed.

(** the full claim: Z goes back to the point of the last move *)
Definition start_of (p : path RNum) : Pt RNum := fold_left (fun q g => match g with Move _ e => e | _ => q end) p (pnt 0 0).
Definition draws_closing (p : path RNum) (c : cmd dec) : path RNum := match c with CClose => (p ++ [Line (here p) (start_of p)])%list | _ => draws p c end.
Theorem C58_close_refuted : ~ (forall l after, spacing_ok false l -> blank after ->
  ParsePathFromSvg (N := RNum) (text l after) = Ok (fold_left draws_closing (map command l) [])).
Proof.
  intros H. specialize (H [Spaced "" (CMove false (ds [0]) (ds [0])) [""; " "]; Spaced "" (CLine false (ds [1]) (ds [0])) [""; " "]; Spaced "" (CLine false (ds [1]) (ds [1])) [""; " "]; Spaced "" CClose []]%nat ""%string).
  rewrite C58_reads_partial in H.
  - specialize (H ltac:(cbn; unfold gaps_ok, blank, dec_ok, frac, ds; cbn; repeat match goal with |- _ /\ _ => split | |- Forall _ _ => constructor | |- _ -> _ => intro end; try reflexivity; try discriminate; try exact I; try lia; try (left; discriminate)) eq_refl).
    injection H as H. apply (f_equal (@List.length _)) in H. discriminate H.
  - cbn; unfold gaps_ok, blank, dec_ok, frac, ds; cbn; repeat match goal with |- _ /\ _ => split | |- Forall _ _ => constructor | |- _ -> _ => intro end; try reflexivity; try discriminate; try exact I; try lia; try (left; discriminate).
  - reflexivity.
Qed.

(** without the rule for negative numbers: "M-1 2L3 4", valid SVG, is refused; and "M-1 2 3L5 6" is read without the -1 *)
Theorem C58_minus_refuted :
  ParsePathFromSvg (N := RNum) "M-1 2L3 4" = Err /\
  ParsePathFromSvg (N := RNum) "M-1 2 3L5 6" = Ok [Move (pnt 0 0) (pnt 2 3); Line (pnt 2 3) (pnt 5 6)].
Proof.
  assert (V0 : forall neg i, dec_val (Dec neg i None) = (if neg then -1 else 1) * IZR (Z.of_N (num i)) / 1) by (intros; unfold dec_val, frac; cbn [d_neg d_int d_frac List.length pow]; rewrite app_nil_r; reflexivity).
  assert (G : forall k n r, (n < 10)%nat -> getNextFloats (N := RNum) (S k) (String (ascii_of_nat (48 + n)) "" :: r) = match getNextFloats (N := RNum) k r with None => None | Some (xs, r') => Some (Fin (INR n) :: xs, r') end).
  { intros k n r Hn. change (String (ascii_of_nat (48 + n)) "") with (dec_text (ds [n])). rewrite gnf_cons by (split; [constructor; [exact Hn|constructor]|split; [constructor|left; discriminate]]). destruct (getNextFloats k r) as [[xs r']|]; [|reflexivity]. do 3 f_equal. unfold ds. rewrite V0.
    unfold num. cbn [fold_left]. rewrite N.mul_0_r, N.add_0_l, nat_N_Z, <- INR_IZR_INZ. f_equal. field. }
  split.
  - unfold ParsePathFromSvg. change (normalise "M-1 2L3 4") with ["M-1"; "2"; "L"; "3"; "4"]%string. cbn [List.length parse_loop next]. change "2"%string with (String (ascii_of_nat (48 + 2)) ""). rewrite G by lia. reflexivity.
  - unfold ParsePathFromSvg. change (normalise "M-1 2 3L5 6") with ["M-1"; String (ascii_of_nat (48 + 2)) ""; String (ascii_of_nat (48 + 3)) ""; "L"; String (ascii_of_nat (48 + 5)) ""; String (ascii_of_nat (48 + 6)) ""]%string.
    cbn [List.length parse_loop next]. rewrite !G by lia. cbn [getNextFloats bind]. unfold NewDraw, MoveTo, LineTo, CurrentPosition. cbn [parse_loop app last send bind].
    change (NewPoint (zero : T RNum) zero) with (NewPoint (Fin 0 : T RNum) (Fin 0)). cbn.
    repeat match goal with |- context [Fin ?x] => match x with 1 + 1 => replace x with 2 by lra | 1 + 1 + 1 => replace x with 3 by lra | 1 * 5 * 1 => replace x with 5 by lra | 1 * 6 * 1 => replace x with 6 by lra end end.
    rewrite !NewPoint_fin. replace (2 + 1) with 3 by lra. reflexivity.
Qed.
