(** C32, continued: where the defaults of an element are. *)
From Coq Require Import String List ZArith Bool Lia.
From Verif Require Import Num DynModel DynProofs ParamModel Prop_C31 Prop_C32.
Import ListNotations.
Local Open Scope string_scope.
Local Open Scope list_scope.

(** An element as it is written: nothing is stored with it yet and its defaults are the entry "defaults" of its own map, if it has one. *)
Definition written (e : elem) : Prop := e_defaults e = None.
Theorem C32_default_written h b es c p v d fuel : at_elem b = within es c -> Get h (at_mp b) p = None -> Lookup 22 h (at_elem b) p = Ok None -> rooted (at_elem b) ->
  (forall e, In e es -> written e /\ Get h (e_orig e) "defaults" = None) -> dotFree p = true ->
  written (self c) -> Get h (e_orig (self c)) "defaults" = Some (VMap d) -> lookup p (hcell h d) = Some v -> (forall s, v <> VStr s) -> 23 <= fuel ->
  attrLookup fuel h b p 0 = Ok (Some v).
Proof.
  intros E G L R HD DF W GD LP NS Hf. apply (C32_default h b es c p v fuel E G L R); auto.
  - intros e I. destruct (HD e I) as [We Ge]. unfold Defaults, storedOr. rewrite We. unfold mustMap. rewrite Ge. unfold mapGet. cbn [lookup]. apply splitDots_free in DF. rewrite DF. reflexivity.
  - unfold Defaults, storedOr. rewrite W. unfold mustMap. rewrite GD. cbn [entries]. unfold mapGet. rewrite LP. reflexivity.
Qed.
Print Assumptions C32_default_written.
(** the group in the drawing has the default gap 2 in its entry "defaults", the shape in it has none *)
Example C32_default_written_example : written shape /\ Get drawing (e_orig shape) "defaults" = None /\ written group /\ exists d, Get drawing (e_orig group) "defaults" = Some (VMap d) /\ lookup "gap" (hcell drawing d) = Some (VInt 2).
Proof. split; [reflexivity|]. split; [reflexivity|]. split; [reflexivity|]. eexists. split; reflexivity. Qed.
