(** C48: chains of transforms run in order and stop at the first error. *)
From Coq Require Import List ZArith Bool.
From Verif Require Import Num PathModel UtilProofs.
Import ListNotations.

(** [runs p ts q]: applying the transforms one after the other, each succeeding, leads from [p] to [q] *)
Theorem C48_in_order : forall (P : Type) (ts : list (P -> res P)) (p q : P), MultiTransform p ts = Ok q <-> runs p ts q.
Proof. exact @MultiTransform_runs. Qed.
(** if the transforms before [t] succeed and [t] does not, its outcome is the chain's, whatever comes later *)
Theorem C48_stops : forall (P : Type) (ts1 : list (P -> res P)) t ts2 (p q : P), runs p ts1 q -> (forall x, t q <> Ok x) ->
  MultiTransform p (ts1 ++ t :: ts2) = t q.
Proof. exact @MultiTransform_stops. Qed.
Print Assumptions C48_in_order.
Print Assumptions C48_stops.

Example C48_example : MultiTransform 1%nat [(fun x => Ok (x + 1)%nat); (fun x => Ok (x * 10)%nat)] = Ok 20%nat /\
  runs 1%nat [(fun x => Ok (x + 1)%nat)] 2%nat /\
  MultiTransform 1%nat [(fun x => Ok (x + 1)%nat); (fun _ => Err); (fun _ => Panic)] = Err.
Proof. repeat split. econstructor; [reflexivity|constructor]. Qed.
