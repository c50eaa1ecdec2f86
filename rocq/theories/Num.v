(** Numbers, number text, and results of Go calls.

    Go's [float64] is modelled by a record of operations without laws.  Code that is
    parametric in [Num] is modelled once; theorems stated for every [Num] hold
    for the IEEE instance ([FloatNum.v]) bit for bit. *)
From Coq Require Import List ZArith NArith String Ascii Bool DecimalString.
Import ListNotations.
Local Open Scope string_scope.

(** Outcome of a Go call returning [(value, error)].
    [Panic] is a Go run-time panic (index out of range, nil dereference);
    [OutOfFuel] is "the recursion bound of the model was exhausted"
    and never stands for a normal result. *)
Inductive res (A : Type) : Type :=
| Ok (a : A)
| Err
| Panic
| OutOfFuel.
Arguments Ok {A} a.
Arguments Err {A}.
Arguments Panic {A}.
Arguments OutOfFuel {A}.

Definition bind {A B} (r : res A) (f : A -> res B) : res B :=
  match r with
  | Ok a => f a
  | Err => Err
  | Panic => Panic
  | OutOfFuel => OutOfFuel
  end.

(** The text produced by Go's [fmt.Sprintf("%.nf", x)] before it is laid out as a
    string: NaN, an infinity, or a sign and the value scaled by [10^n] and rounded
    to an integer.  The sign is kept apart because Go prints "-0.000". *)
Inductive ftext : Type :=
| FTnan
| FTinf (neg : bool)
| FTdec (neg : bool) (m : N).

(** Decimal digit characters. *)
Definition digit_char (d : N) : ascii := ascii_of_N (48 + d).

(** exactly [n] decimal digits of [m], most significant first *)
Fixpoint digits_pad (n : nat) (m : N) (acc : string) : string :=
  match n with
  | O => acc
  | S n' => digits_pad n' (m / 10) (String (digit_char (m mod 10)) acc)
  end.

(** decimal digits of [m] without leading zeros ("0" for zero) *)
Definition digits_int (m : N) : string := NilZero.string_of_uint (N.to_uint m).

(** Layout of [%.nf] (Go's fmt with verb [f]; used at path/path.go:170, 174, 271,
    275, 306, 316, 369 and path/util.go:385-386). *)
Definition render (n : nat) (t : ftext) : string :=
  match t with
  | FTnan => "NaN"
  | FTinf false => "+Inf"
  | FTinf true => "-Inf"
  | FTdec s m =>
      (if s then "-" else "") ++
      digits_int (m / 10 ^ N.of_nat n) ++
      match n with
      | O => ""
      | S _ => String "." (digits_pad n (m mod 10 ^ N.of_nat n) "")
      end
  end.

(** Round half to even of [num / den] ([den] > 0), the rounding of Go's [%.nf]. *)
Definition round_half_even (num den : N) : N :=
  let q := N.div num den in
  let r := N.modulo num den in
  match N.compare (2 * r) den with
  | Lt => q
  | Gt => q + 1
  | Eq => if N.even q then q else q + 1
  end.

Record Num : Type := mkNum {
  T : Type;                                (* float64 *)
  ofZ : Z -> T;                            (* integer constants *)
  add : T -> T -> T;
  sub : T -> T -> T;
  mul : T -> T -> T;
  div : T -> T -> T;
  opp : T -> T;
  nsqrt : T -> T;                          (* math.Sqrt *)
  nabs : T -> T;                           (* math.Abs *)
  ltb : T -> T -> bool;                    (* < *)
  leb : T -> T -> bool;                    (* <= *)
  eqb : T -> T -> bool;                    (* == *)
  isnan : T -> bool;                       (* math.IsNaN *)
  fmtd : nat -> T -> ftext;                (* %.nf *)
  ofdec : bool -> N -> Z -> option T;      (* strconv.ParseFloat on (-)m * 10^e; None = range error *)
  ofspecial : ftext -> option T            (* strconv.ParseFloat on NaN / +Inf / -Inf *)
}.

Arguments ofZ {n}. Arguments add {n}. Arguments sub {n}. Arguments mul {n}. Arguments div {n}.
Arguments opp {n}. Arguments nsqrt {n}. Arguments nabs {n}. Arguments ltb {n}. Arguments leb {n}.
Arguments eqb {n}. Arguments isnan {n}. Arguments fmtd {n}. Arguments ofdec {n}. Arguments ofspecial {n}.

Definition zero {N : Num} : T N := ofZ 0.
Definition one {N : Num} : T N := ofZ 1.
Definition gtb {N : Num} (x y : T N) : bool := ltb y x.
Definition geb {N : Num} (x y : T N) : bool := leb y x.

(** [fmt.Sprintf("%.nf", x)] *)
Definition fmt {N : Num} (n : nat) (x : T N) : string := render n (fmtd n x).

Declare Scope num_scope.
Delimit Scope num_scope with num.
Notation "x + y" := (add x y) : num_scope.
Notation "x - y" := (sub x y) : num_scope.
Notation "x * y" := (mul x y) : num_scope.
Notation "x / y" := (div x y) : num_scope.
Notation "- x" := (opp x) : num_scope.

(** Trigonometric functions of package math, kept apart because IEEE 754 does not fix them. *)
Record Trig (N : Num) : Type := mkTrig {
  nsin : T N -> T N;
  ncos : T N -> T N;
  natan : T N -> T N;
  natan2 : T N -> T N -> T N;
  npi : T N
}.
Arguments nsin {N}. Arguments ncos {N}. Arguments natan {N}. Arguments natan2 {N}. Arguments npi {N}.
