(** Flags and points given by an angle, read from attributes (dom/param_lookup.go) *)
From Coq Require Import String List ZArith Bool.
From Coq.Floats Require Import SpecFloat.
From Verif Require Import Num FloatNum PathModel DrawModel DynModel ParamModel.
Import ListNotations.
Local Open Scope string_scope.

Section AttrRead.
Context (L : Lang).

(** dom/param_lookup.go:265-276 [Attr.Bool]; None for "not ok" *)
Definition attrBool (fuel : nat) (h : heap) (b : attr) (param : string) : res (option bool) :=
  bind (attrString L fuel h b param) (fun st => Ok (if snd st then ToBool (VStr (fst st)) else None)).
(** dom/param_lookup.go:278-284 [Attr.MustBool] *)
Definition attrMustBool (fuel : nat) (h : heap) (b : attr) (param : string) (def : bool) : res bool :=
  bind (attrBool fuel h b param) (fun o => Ok (match o with Some t => t | None => def end)).

(** dom/param_lookup.go:109-130 [Attr.Point2]; dynmap.IsDynMapConvertable (dynmap/typecast.go:148-166) holds of the values with entries *)
Definition attrPoint2 (tr : Trig FNum) (fuel : nat) (h : heap) (cursor : string -> option (spec_float * spec_float)) (b : attr) (param : string) (from : Pt FNum) : res (option (Pt FNum)) :=
  bind (attrPoint L fuel h cursor b param) (fun o =>
    match o with
    | Some (x, y) => Ok (Some (@NewPoint FNum x y))
    | None => bind (attrLookup fuel h b param 0) (fun ov =>
        match ov with
        | None => Ok None
        | Some v => match entries h v with
                    | None => Ok None
                    | Some _ => bind (attrFloat64 L fuel h b (param ++ ".angle")) (fun oa => match oa with
                                  | None => Ok None
                                  | Some angle => bind (attrFloat64 L fuel h b (param ++ ".length")) (fun ol => match ol with
                                                    | None => Ok None
                                                    | Some length => Ok (Some (send (@NewLineSegmentAngle FNum tr from length angle)))
                                                    end)
                                  end)
                    end
        end)
    end).
End AttrRead.
