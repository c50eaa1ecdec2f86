(** Model of the rest of util/logging.go: the fields of messages, what is printed, and a message as a map.  LogModel.v has the levels
    and says which log keeps which message and reports errors. *)
From Coq Require Import String List Arith ZArith Bool.
From Verif Require Import Num DynModel LogModel.
Import ListNotations.
Local Open Scope string_scope.
Local Open Scope list_scope.

(** util/logging.go:11-18: the levels as numbers *)
Definition rank (l : level) : nat := match l with Debug => 0 | Info => 1 | Error => 2 | Fatal => 3 end.
(** util/logging.go:20-32 [LogLevel.String] (of the four levels) *)
Definition levelName (l : level) : string := match l with Debug => "debug" | Info => "info" | Error => "error" | Fatal => "fatal" end.
(** strings.ToUpper of the above *)
Definition levelUpper (l : level) : string := match l with Debug => "DEBUG" | Info => "INFO" | Error => "ERROR" | Fatal => "FATAL" end.

(** util/logging.go:34-39 [LogMessage]: the map of its fields (an address in the heap of DynModel.v), the time, the level, the text *)
Record entry : Type := mkEntry { e_fields : nat; e_time : Z; e_level : level; e_text : string }.
(** util/logging.go:53-62 [HfdLog]; hasErrors is in LogModel.v *)
Record flog : Type := mkFlog { f_stdout : level; f_entries : list entry; f_static : nat; f_parent : option nat }.
(** the maps, the logs made so far, and the lines printed *)
Record world : Type := mkWorld { w_heap : heap; w_logs : list flog; w_printed : list string }.

(** dynmap/dynmap.go:262-264 [IsEmpty] *)
Definition IsEmpty (h : heap) (a : nat) : bool := match hcell h a with [] => true | _ => false end.

(** util/logging.go:64-71 [NewLog] *)
Definition newLog (w : world) : world :=
  let '(a, h) := alloc (w_heap w) in mkWorld h (w_logs w ++ [mkFlog Error [] a None]) (w_printed w).
(** util/logging.go:79-87 [NewChild] of the log [i]; calling it on nil panics *)
Definition newChild (i : nat) (w : world) : res world :=
  match nth_error (w_logs w) i with
  | Some l => let '(a, h) := alloc (w_heap w) in Ok (mkWorld h (w_logs w ++ [mkFlog (f_stdout l) [] a (Some i)]) (w_printed w))
  | None => Panic
  end.

Fixpoint change (i : nat) (f : flog -> flog) (s : list flog) : list flog :=
  match s, i with
  | [], _ => []
  | l :: r, O => f l :: r
  | l :: r, S j => l :: change j f r
  end.
(** util/logging.go:52-55: the exported field LogToStdOut, set by main.go:97 *)
Definition setStdOut (i : nat) (lev : level) (w : world) : world :=
  mkWorld (w_heap w) (change i (fun l => mkFlog lev (f_entries l) (f_static l) (f_parent l)) (w_logs w)) (w_printed w).
(** util/logging.go:103-114 [addMsg] *)
Definition addEntry (e : entry) (l : flog) : flog := mkFlog (f_stdout l) (f_entries l ++ [e]) (f_static l) (f_parent l).

(** util/logging.go:90-93 and 138-141: the fields of a message as the log with the static fields [a] keeps them *)
Definition withStatic (fuel : nat) (h : heap) (a fields : nat) : res (nat * heap) :=
  if IsEmpty h a then Ok (fields, h)
  else bind (Clone fuel h a) (fun ch => bind (Merge fuel (snd ch) (fst ch) fields) (fun h' => Ok (fst ch, h'))).

(** util/logging.go:89-101 [logFromChild] *)
Definition logFromChild (fuel : nat) (p : nat) (m : entry) (h : heap) (s : list flog) : res (heap * list flog) :=
  match nth_error s p with
  | Some l => bind (withStatic fuel h (f_static l) (e_fields m)) (fun fh =>
      Ok (snd fh, change p (addEntry (mkEntry (fst fh) (e_time m) (e_level m) (e_text m))) s))
  | None => Panic
  end.
(** util/logging.go:154: the line printed *)
Definition line (lev : level) (text : string) : string := (levelUpper lev ++ ":: " ++ text)%string.
(** util/logging.go:137-157 [Logf]; [text] is what fmt.Sprintf makes of the format and [now] the time.  Errorf, Infof, Debugf
    (116-135) call it with a new map and the level of their name *)
Definition logf (fuel : nat) (i : nat) (lev : level) (fields : nat) (text : string) (now : Z) (w : world) : res world :=
  match nth_error (w_logs w) i with
  | None => Panic
  | Some l =>
      bind (withStatic fuel (w_heap w) (f_static l) fields) (fun fh =>
        let m := mkEntry (fst fh) now lev text in
        let s := change i (addEntry m) (w_logs w) in
        bind (match f_parent l with Some p => logFromChild fuel p m (snd fh) s | None => Ok (snd fh, s) end) (fun hs =>
          Ok (mkWorld (fst hs) (snd hs) (w_printed w ++ if Nat.leb (rank (f_stdout l)) (rank lev) then [line lev text] else []))))
  end.

(** util/logging.go:41-47 [LogMessage.ToDynMap] *)
Definition entryMap (fuel : nat) (e : entry) (h : heap) : res (nat * heap) :=
  bind (Clone fuel h (e_fields e)) (fun ch =>
    let c := fst ch in
    Ok (c, Put (Put (Put (snd ch) c "message" (VStr (e_text e))) c "timestamp" (VTime (e_time e))) c "level" (VStr (levelName (e_level e))))).

(** the calls a program makes; a message may bring its fields or the new map of Errorf *)
Inductive act : Type :=
| ANew | AChild (i : nat) | AStdOut (i : nat) (l : level) | AStatic (i : nat) (k : string) (v : val) | ALog (i : nat) (l : level) (text : string) (now : Z).
(** main.go:153 and 226 put into the map of static fields *)
Definition perform (fuel : nat) (w : world) (a : act) : res world :=
  match a with
  | ANew => Ok (newLog w)
  | AChild i => newChild i w
  | AStdOut i l => match nth_error (w_logs w) i with Some _ => Ok (setStdOut i l w) | None => Panic end
  | AStatic i k v => match nth_error (w_logs w) i with Some l => Ok (mkWorld (Put (w_heap w) (f_static l) k v) (w_logs w) (w_printed w)) | None => Panic end
  | ALog i l text now => let '(f, h) := alloc (w_heap w) in logf fuel i l f text now (mkWorld h (w_logs w) (w_printed w))
  end.
Definition start : world := mkWorld (mkHeap 0 (fun _ => [])) [] [].
Fixpoint performs (fuel : nat) (w : world) (l : list act) : res world :=
  match l with [] => Ok w | a :: r => bind (perform fuel w a) (fun w' => performs fuel w' r) end.
