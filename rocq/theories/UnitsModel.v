(** Model of the measurement units of dom/common.go. *)
From Coq Require Import String Ascii ZArith NArith Bool.
From Verif Require Import Num SvgParse.
Local Open Scope string_scope.
Local Open Scope num_scope.

(** dom/common.go:9-12 [Units] *)
Record Units : Type := mkUnits { u_name : string; u_abv : string }.
(** dom/common.go:32-37 *)
Definition MilliMeters : Units := mkUnits "MilliMeters" "mm".
Definition Inches : Units := mkUnits "Inches" "in".

Section Units.
Context {N : Num}.
Notation F := (T N).

(** the literal 25.4: the quotient of two small integers rounds to the same double as the literal *)
Definition mmPerInch : F := ofZ 254 / ofZ 10.
(** dom/common.go:62-64 [MMToInch] *)
Definition MMToInch (mm : F) : F := mm / mmPerInch.
(** dom/common.go:66-68 [InchToMM] *)
Definition InchToMM (inch : F) : F := inch * mmPerInch.
(** dom/common.go:14-21 [Units.FromInch] *)
Definition FromInch (u : Units) (x : F) : F := if String.eqb (u_abv u) "mm" then InchToMM x else x.
(** dom/common.go:23-30 [Units.FromMM] *)
Definition FromMM (u : Units) (x : F) : F := if String.eqb (u_abv u) "in" then MMToInch x else x.
End Units.

(** strings.ToLower as far as it matters here: A-Z, and U+0130 (bytes C4 B0), the only other character it maps to a letter of the
    four words below; other characters stay as they are in the model *)
Fixpoint toLower (s : string) : string :=
  match s with
  | "" => ""
  | String a r =>
      match r with
      | String b r' => if (N_of_ascii a =? 196)%N && (N_of_ascii b =? 176)%N then String "i" (toLower r') else String (lowerCh a) (toLower r)
      | "" => String (lowerCh a) ""
      end
  end.
(** dom/common.go:43-52 [NewUnits] *)
Definition NewUnits (s : string) : Units * bool :=
  let w := toLower s in
  if String.eqb w "in" || String.eqb w "inches" then (Inches, true)
  else if String.eqb w "mm" || String.eqb w "millimeters" then (MilliMeters, true)
  else (MilliMeters, false).
(** dom/common.go:54-60 [MustUnits] *)
Definition MustUnits (s : string) (default : Units) : Units :=
  let '(u, ok) := NewUnits s in if ok then u else default.
