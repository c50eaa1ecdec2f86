(** Model of the lists of files (util/file.go).  A directory is a tree; reading it and removing files does not fail. *)
From Coq Require Import String Ascii List Bool.
From Verif Require Import Num Output.
Import ListNotations.
Local Open Scope string_scope.

(** a file or a directory with its entries, in the order in which path/filepath Walk meets them (it sorts them by name) *)
Inductive node : Type := File | Dir (entries : list (string * node)).
Definition isDirNode (t : node) : bool := match t with File => false | Dir _ => true end.

(** the names between the separators *)
Fixpoint splitSep (s : string) : list string :=
  match s with
  | "" => [""]
  | String c r => if Ascii.eqb c "/" then "" :: splitSep r else match splitSep r with n :: ns => String c n :: ns | [] => [String c ""] end
  end.
(** path/filepath Clean: empty names and . are dropped, .. takes the name before it away (kept when there is none, unless the path is rooted);
    [acc] are the names so far, the last one first *)
Fixpoint cleanNames (rooted : bool) (acc : list string) (ns : list string) : list string :=
  match ns with
  | [] => rev acc
  | n :: r => if String.eqb n "" || String.eqb n "." then cleanNames rooted acc r
              else if String.eqb n ".." then
                match acc with
                | a :: acc' => if String.eqb a ".." then cleanNames rooted (n :: acc) r else cleanNames rooted acc' r
                | [] => if rooted then cleanNames rooted [] r else cleanNames rooted [n] r
                end
              else cleanNames rooted (n :: acc) r
  end.
Definition joinSep (ns : list string) : string := String.concat "/" ns.
Definition clean (p : string) : string :=
  match p with
  | String "/" r => "/" ++ joinSep (cleanNames true [] (splitSep r))
  | _ => match cleanNames false [] (splitSep p) with [] => "." | ns => joinSep ns end
  end.
(** path/filepath Join of a directory and a name *)
Definition joinPath (dir name : string) : string := clean (dir ++ "/" ++ name).

(** path/filepath Walk: what it visits, and whether that is a directory *)
Fixpoint visits (p : string) (t : node) : list (string * bool) :=
  (p, isDirNode t) ::
  match t with
  | File => []
  | Dir es => (fix go (es : list (string * node)) : list (string * bool) := match es with [] => [] | (n, t') :: r => (visits (joinPath p n) t' ++ go r)%list end) es
  end.
(** strings.TrimPrefix *)
Fixpoint dropPrefix (pre s : string) : option string :=
  match pre, s with
  | "", _ => Some s
  | String a pre', String b s' => if Ascii.eqb a b then dropPrefix pre' s' else None
  | _, _ => None
  end.
Definition trimPrefix (s pre : string) : string := match dropPrefix pre s with Some t => t | None => s end.

(** util/file.go:33-46 [FileList] of the tree [t] that is found at [directory] *)
Definition listFiles (directory : string) (t : node) (extension : string) : list string :=
  map fst (filter (fun v => negb (snd v) && hasSuffix (fst v) extension) (visits directory t)).
(** util/file.go:54-69 [RelFileList] *)
Definition RelFileList (directory : string) (t : node) (extension : string) : list string :=
  map (fun v => trimPrefix (trimPrefix (fst v) directory) "/") (filter (fun v => negb (snd v) && hasSuffix (fst v) extension) (visits directory t)).
(** util/file.go:72-85 [DirectoryList] *)
Definition DirectoryList (directory : string) (t : node) : list string := map fst (filter (fun v => negb (snd v)) (visits directory t)).
(** util/file.go:11-23 [ClearDir], on the texts of the files *)
Definition remove (d : disk) (n : string) : disk := fun m => if String.eqb m n then None else d m.
Definition ClearDir (d : disk) (directory : string) (t : node) (extension : string) : disk := fold_left remove (listFiles directory t extension) d.
