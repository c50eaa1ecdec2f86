(** The exact-arithmetic instance of [Num]: real numbers extended with the two
    infinities and NaN, so that division by zero and square roots of negative numbers
    behave as in Go rather than as totalised real functions.  There is one zero
    (a quotient by zero has the sign of its numerator). *)
From Coq Require Import ZArith NArith Bool Reals Lra.
From Verif Require Import Num.
Local Open Scope R_scope.

Inductive ER : Type := Fin (x : R) | Inf (neg : bool) | NaN.

Definition Rltb (x y : R) : bool := if Rlt_dec x y then true else false.
Definition Rleb (x y : R) : bool := if Rle_dec x y then true else false.
Definition Reqb (x y : R) : bool := if Req_EM_T x y then true else false.

Definition er_opp (a : ER) : ER :=
  match a with Fin x => Fin (- x) | Inf s => Inf (negb s) | NaN => NaN end.

Definition er_add (a b : ER) : ER :=
  match a, b with
  | NaN, _ | _, NaN => NaN
  | Fin x, Fin y => Fin (x + y)
  | Inf s, Inf s' => if Bool.eqb s s' then Inf s else NaN
  | Inf s, Fin _ | Fin _, Inf s => Inf s
  end.

Definition er_sub (a b : ER) : ER :=
  match a, b with
  | Fin x, Fin y => Fin (x - y)
  | _, _ => er_add a (er_opp b)
  end.

Definition er_mul (a b : ER) : ER :=
  match a, b with
  | NaN, _ | _, NaN => NaN
  | Fin x, Fin y => Fin (x * y)
  | Inf s, Inf s' => Inf (xorb s s')
  | Inf s, Fin x | Fin x, Inf s => if Reqb x 0 then NaN else Inf (xorb s (Rltb x 0))
  end.

Definition er_div (a b : ER) : ER :=
  match a, b with
  | NaN, _ | _, NaN => NaN
  | Fin x, Fin y =>
      if Reqb y 0 then (if Reqb x 0 then NaN else Inf (Rltb x 0)) else Fin (x / y)
  | Inf _, Inf _ => NaN
  | Inf s, Fin y => Inf (xorb s (Rltb y 0))
  | Fin _, Inf _ => Fin 0
  end.

Definition er_sqrt (a : ER) : ER :=
  match a with
  | Fin x => if Rltb x 0 then NaN else Fin (sqrt x)
  | Inf false => Inf false
  | _ => NaN
  end.

Definition er_abs (a : ER) : ER :=
  match a with Fin x => Fin (Rabs x) | Inf _ => Inf false | NaN => NaN end.

Definition er_ltb (a b : ER) : bool :=
  match a, b with
  | NaN, _ | _, NaN => false
  | Fin x, Fin y => Rltb x y
  | Fin _, Inf s => negb s
  | Inf s, Fin _ => s
  | Inf s, Inf s' => s && negb s'
  end.

Definition er_eqb (a b : ER) : bool :=
  match a, b with
  | Fin x, Fin y => Reqb x y
  | Inf s, Inf s' => Bool.eqb s s'
  | _, _ => false
  end.

Definition er_leb (a b : ER) : bool :=
  match a, b with
  | NaN, _ | _, NaN => false
  | Fin x, Fin y => Rleb x y
  | _, _ => er_ltb a b || er_eqb a b
  end.

Definition er_isnan (a : ER) : bool := match a with NaN => true | _ => false end.

(** nearest integer, ties to even, of a non-negative real *)
Definition Rround_he (y : R) : N :=
  let f := Int_part y in
  let r := y - IZR f in
  Z.to_N (if Rlt_dec r (1/2) then f
          else if Rlt_dec (1/2) r then (f + 1)%Z
          else if Z.even f then f else (f + 1)%Z).

Definition er_fmtd (n : nat) (a : ER) : ftext :=
  match a with
  | NaN => FTnan
  | Inf s => FTinf s
  | Fin x => FTdec (Rltb x 0) (Rround_he (Rabs x * 10 ^ n))
  end.

Definition er_ofdec (neg : bool) (m : N) (e : Z) : option ER :=
  Some (Fin ((if neg then -1 else 1) * IZR (Z.of_N m) * powerRZ 10 e)).

Definition er_ofspecial (t : ftext) : option ER :=
  match t with FTnan => Some NaN | FTinf s => Some (Inf s) | FTdec _ _ => None end.

Definition RNum : Num :=
  mkNum ER (fun z => Fin (IZR z)) er_add er_sub er_mul er_div er_opp er_sqrt er_abs
        er_ltb er_leb er_eqb er_isnan er_fmtd er_ofdec er_ofspecial.

(** basic facts about the boolean comparisons *)
Lemma Rltb_true x y : Rltb x y = true <-> x < y.
Proof. unfold Rltb. destruct (Rlt_dec x y); split; intros; try lra; try discriminate; auto. Qed.
Lemma Rltb_false x y : Rltb x y = false <-> y <= x.
Proof. unfold Rltb. destruct (Rlt_dec x y); split; intros; try lra; try discriminate; auto. Qed.
Lemma Rleb_true x y : Rleb x y = true <-> x <= y.
Proof. unfold Rleb. destruct (Rle_dec x y); split; intros; try lra; try discriminate; auto. Qed.
Lemma Rleb_false x y : Rleb x y = false <-> y < x.
Proof. unfold Rleb. destruct (Rle_dec x y); split; intros; try lra; try discriminate; auto. Qed.
Lemma Reqb_true x y : Reqb x y = true <-> x = y.
Proof. unfold Reqb. destruct (Req_EM_T x y); split; intros; auto; try discriminate; contradiction. Qed.
Lemma Reqb_false x y : Reqb x y = false <-> x <> y.
Proof. unfold Reqb. destruct (Req_EM_T x y); split; intros; auto; try discriminate; contradiction. Qed.
Lemma Rltb_spec x y : Bool.reflect (x < y) (Rltb x y).
Proof. unfold Rltb. destruct (Rlt_dec x y); constructor; auto. Qed.
Lemma Rleb_spec x y : Bool.reflect (x <= y) (Rleb x y).
Proof. unfold Rleb. destruct (Rle_dec x y); constructor; auto. Qed.
Lemma Reqb_spec x y : Bool.reflect (x = y) (Reqb x y).
Proof. unfold Reqb. destruct (Req_EM_T x y); constructor; auto. Qed.
