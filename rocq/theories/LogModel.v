(** Model of util/logging.go: a store of logs that refer to their parent. *)
From Coq Require Import String List Arith Bool.
Import ListNotations.

(** util/logging.go:11-18 [LogLevel] *)
Inductive level : Type := Debug | Info | Error | Fatal.
Definition isError (l : level) : bool := match l with Error => true | _ => false end.

(** util/logging.go:34-39 [LogMessage], without the fields and the time *)
Definition message : Type := (level * string)%type.

(** util/logging.go:53-62 [HfdLog]; a log is an index into the store; fields and printing are not modelled *)
Record log : Type := mkLog { l_hasErrors : bool; l_messages : list message; l_parent : option nat }.
Definition store : Type := list log.

(** util/logging.go:64-71 [NewLog] *)
Definition NewLog (s : store) : store := s ++ [mkLog false [] None].
(** util/logging.go:79-87 [NewChild] *)
Definition NewChild (i : nat) (s : store) : store := s ++ [mkLog false [] (Some i)].

(** util/logging.go:103-114 [addMsg] *)
Definition addMsg (m : message) (l : log) : log :=
  mkLog (if isError (fst m) then true else l_hasErrors l) (l_messages l ++ [m]) (l_parent l).
Fixpoint update (i : nat) (f : log -> log) (s : store) : store :=
  match s, i with
  | [], _ => []
  | l :: r, O => f l :: r
  | l :: r, S j => l :: update j f r
  end.
(** util/logging.go:137-157 [Logf] and 89-101 [logFromChild] (which does not go on to its own parent) *)
Definition Logf (i : nat) (m : message) (s : store) : store :=
  let s1 := update i (addMsg m) s in
  match nth_error s i with
  | Some l => match l_parent l with Some p => update p (addMsg m) s1 | None => s1 end
  | None => s1
  end.
(** util/logging.go:73-75 [HasErrors] *)
Definition HasErrors (i : nat) (s : store) : bool := match nth_error s i with Some l => l_hasErrors l | None => false end.

(** the calls a program can make, and their effect *)
Inductive call : Type := CNew | CChild (i : nat) | CLog (i : nat) (m : message).
Definition step (s : store) (c : call) : store :=
  match c with CNew => NewLog s | CChild i => NewChild i s | CLog i m => Logf i m s end.
Definition run (h : list call) : store := fold_left step h [].
