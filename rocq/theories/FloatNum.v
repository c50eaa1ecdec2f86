(** The IEEE binary64 instance of [Num], from the standard library's [SpecFloat]
    (pure Gallina, no axioms).  Go on amd64 evaluates float64 operations with
    exactly this rounding (it never fuses there). *)
From Coq Require Import ZArith NArith Bool String.
From Coq.Floats Require Import SpecFloat.
From Verif Require Import Num.

Definition f64_prec : Z := 53.
Definition f64_emax : Z := 1024.

Definition F64 := spec_float.

(** nearest binary64 to the integer z *)
Definition f_ofZ (z : Z) : F64 := binary_normalize f64_prec f64_emax z 0 false.

Definition f_add := SFadd f64_prec f64_emax.
Definition f_sub := SFsub f64_prec f64_emax.
Definition f_mul := SFmul f64_prec f64_emax.
Definition f_div := SFdiv f64_prec f64_emax.
Definition f_sqrt := SFsqrt f64_prec f64_emax.

Definition f_isnan (x : F64) : bool := match x with S754_nan => true | _ => false end.

(** exact value scaled by 10^n, rounded half to even, with the sign bit *)
Definition f_fmtd (n : nat) (x : F64) : ftext :=
  match x with
  | S754_nan => FTnan
  | S754_infinity s => FTinf s
  | S754_zero s => FTdec s 0
  | S754_finite s m e =>
      let num := (Npos m * 10 ^ N.of_nat n)%N in
      match e with
      | Z0 => FTdec s num
      | Zpos p => FTdec s (num * 2 ^ Npos p)%N
      | Zneg p => FTdec s (round_half_even num (2 ^ Npos p))
      end
  end.

(** correctly rounded (-)m * 10^e; overflow is a range error *)
Definition f_ofdec (neg : bool) (m : N) (e : Z) : option F64 :=
  match m with
  | N0 => Some (S754_zero neg)
  | Npos p =>
      let r :=
        match e with
        | Zneg k => SFdiv f64_prec f64_emax (S754_finite neg p 0) (S754_finite false (10 ^ k)%positive 0)
        | _ => match (Npos p * 10 ^ Z.to_N e)%N with
               | Npos q => binary_normalize f64_prec f64_emax (if neg then Zneg q else Zpos q) 0 neg
               | N0 => S754_zero neg
               end
        end in
      match r with
      | S754_infinity _ => None
      | _ => Some r
      end
  end.

Definition f_ofspecial (t : ftext) : option F64 :=
  match t with
  | FTnan => Some S754_nan
  | FTinf s => Some (S754_infinity s)
  | FTdec _ _ => None
  end.

Definition FNum : Num :=
  mkNum F64 f_ofZ f_add f_sub f_mul f_div SFopp f_sqrt SFabs SFltb SFleb SFeqb f_isnan
        f_fmtd f_ofdec f_ofspecial.

(** shorthand for a binary64 given as a decimal (-)m * 10^e *)
Definition flt (z : Z) (e : Z) : F64 :=
  match f_ofdec (Z.ltb z 0) (Z.abs_N z) e with Some x => x | None => S754_nan end.

(** Tests of the instance (not proofs of anything about all floats). *)
Example fmt_1_5 : @fmt FNum 3 (flt 15 (-1)) = "1.500"%string. Proof. vm_compute. reflexivity. Qed.
Example fmt_m0 : @fmt FNum 3 (flt (-1) (-4)) = "-0.000"%string. Proof. vm_compute. reflexivity. Qed.
Example fmt_half_even : @fmt FNum 0 (flt 25 (-1)) = "2"%string. Proof. vm_compute. reflexivity. Qed.
Example fmt_0125 : @fmt FNum 2 (flt 125 (-3)) = "0.12"%string. Proof. vm_compute. reflexivity. Qed.
Example fmt_big : @fmt FNum 1 (flt 123456789012 3) = "123456789012000.0"%string. Proof. vm_compute. reflexivity. Qed.
Example third : @div FNum (f_ofZ 2) (f_ofZ 3) = S754_finite false 6004799503160661 (-53). Proof. vm_compute. reflexivity. Qed.
Example dec_tenth : flt 1 (-1) = S754_finite false 7205759403792794 (-56). Proof. vm_compute. reflexivity. Qed.
