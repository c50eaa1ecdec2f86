(** Model of the files that the program writes and compares: main.go.  A disk is a map from file names to texts; reading and creating files does not fail.
    What a design renders to is a parameter: the texts of its sheets (dom/planset.go, dom/svg_renderer.go), or nothing if there was an error. *)
From Coq Require Import String Ascii List NArith Bool.
From Verif Require Import Num.
Import ListNotations.
Local Open Scope string_scope.

(** the text after the last c, if there is one *)
Fixpoint afterLast (c : ascii) (s : string) : option string :=
  match s with "" => None | String d r => match afterLast c r with Some t => Some t | None => if Ascii.eqb d c then Some r else None end end.
(** path/filepath Split: the name after the last separator *)
Definition base (p : string) : string := match afterLast "/" p with Some t => t | None => p end.
(** the directory before it, with the separator *)
Fixpoint dirOf (p : string) : string := match p with "" => "" | String c r => match afterLast "/" p with Some _ => String c (dirOf r) | None => "" end end.
(** path/filepath Ext: from the last dot of the name *)
Definition ext (p : string) : string := match afterLast "." (base p) with Some t => "." ++ t | None => "" end.
(** strings.TrimSuffix *)
Fixpoint trimSuffix (s suf : string) : string := if String.eqb s suf then "" else match s with "" => "" | String c r => String c (trimSuffix r suf) end.
(** path/filepath Join for a directory that Clean has returned and a name that is not empty, . or .. *)
Definition joinDir (dir name : string) : string := if String.eqb dir "." then name else if String.eqb dir "/" then "/" ++ name else dir ++ "/" ++ name.

Section Disk.
(** main.go:302-313 [IsDir], the state of the disk; path/filepath Clean, see [joinDir] *)
Variable isDir : string -> bool.
Variable clean : string -> string.

(** main.go:270-300 [createFilename] *)
Definition createFilename (filePath documentPath : string) : string :=
  let dcFn := base documentPath in
  if String.eqb filePath "" then trimSuffix dcFn (ext documentPath)
  else
    let '(fpDir, fpFn) := if isDir filePath then (clean filePath, "") else (clean (dirOf filePath), base filePath) in
    if String.eqb fpFn "" then joinDir fpDir (trimSuffix dcFn (ext dcFn)) else trimSuffix filePath (ext filePath).

(** %03d *)
Definition pad3 (i : N) : string := if N.ltb i 1000 then digits_pad 3 i "" else digits_int i.
(** main.go:324 *)
Definition fileName (saveFile : string) (i : N) : string := saveFile ++ "_" ++ pad3 i ++ ".svg".
(** dom/planset.go:118 *)
Definition zipName (filename : string) (i : N) : string := filename ++ "." ++ digits_int i ++ ".svg".

Definition disk := string -> option string.
Definition write (d : disk) (n s : string) : disk := fun m => if String.eqb m n then Some s else d m.
(** main.go:315-334 [save] from the sheet with index i *)
Fixpoint saveFrom (d : disk) (saveFile : string) (i : N) (sheets : list string) : disk :=
  match sheets with [] => d | s :: r => saveFrom (write d (fileName saveFile i) s) saveFile (N.succ i) r end.
Definition save (d : disk) (saveFile : string) (sheets : list string) : disk := saveFrom d saveFile 0 sheets.
(** main.go:212-239 [RenderAll] on the files found; the log is left out *)
Fixpoint RenderAll (rendered : string -> option (list string)) (outputDir : string) (d : disk) (files : list string) : disk :=
  match files with
  | [] => d
  | rf :: r => RenderAll rendered outputDir (match rendered rf with Some sheets => save d (createFilename outputDir rf) sheets | None => d end) r
  end.
(** dom/planset.go:114-124 [RenderZip]: the entries of the archive from the sheet with index i *)
Fixpoint zipFrom (filename : string) (i : N) (sheets : list string) : list (string * string) :=
  match sheets with [] => [] | s :: r => (zipName filename i, s) :: zipFrom filename (N.succ i) r end.
Definition RenderZip (filename : string) (sheets : list string) : list (string * string) := zipFrom filename 0 sheets.
End Disk.
(** strings.HasSuffix *)
Fixpoint hasSuffix (s suf : string) : bool := String.eqb s suf || match s with "" => false | String _ r => hasSuffix r suf end.
(** util/file.go:33-46 [FileList] of the files of a directory tree *)
Definition FileList (tree : list string) (extension : string) : list string := filter (fun p => hasSuffix p extension) tree.

(** main.go:139-206 [CompareDirectories]: what is reported for the files of the left directory; that two texts have no differences means that they are equal *)
Inductive report := BadDiff (file1 file2 : string) | Missing (file : string).
(** what ioutil.ReadFile gives, nothing if there is an error *)
Definition content (d : disk) (n : string) : string := match d n with Some a => a | None => "" end.
Definition compareFile (d : disk) (right : list string) (l : string) : list report :=
  match find (fun r => String.eqb (base r) (base l)) right with
  | Some r => if String.eqb (content d l) (content d r) then [] else [BadDiff l r]
  | None => [Missing l]
  end.
Definition CompareDirectories (d : disk) (left right : list string) : list report := flat_map (compareFile d right) left.
(** main.go:114-134: the number that is printed *)
Definition diffCount (rs : list report) : nat := List.length (filter (fun r => match r with BadDiff _ _ => true | Missing _ => false end) rs).
