(** Model of the command line: main of main.go, and of the library flag what it uses. *)
From Coq Require Import String Ascii List NArith Bool.
From Verif Require Import Num DynModel Output Files.
Import ListNotations.
Local Open Scope string_scope.

(** *** flags *)
(** flag parseOne: what a word of the command line is.  The word -- ends the flags like a word that is none. *)
Inductive flagWord := NoFlag | BadFlag | Flag (name : string) (value : option string).
(** the text before the first = and, if there is one, the text after it *)
Fixpoint cutEq (s : string) : string * option string :=
  match s with
  | "" => ("", None)
  | String c r => if Ascii.eqb c "=" then ("", Some r) else let '(a, b) := cutEq r in (String c a, b)
  end.
Definition flagNamed (s : string) : flagWord :=
  match s with
  | "" => BadFlag
  | String c r => if Ascii.eqb c "-" || Ascii.eqb c "=" then BadFlag else let '(a, b) := cutEq r in Flag (String c a) b
  end.
Definition wordOf (s : string) : flagWord :=
  match s with
  | String a (String b r) =>
      if Ascii.eqb a "-" then
        if Ascii.eqb b "-" then if String.eqb r "" then NoFlag else flagNamed r
        else flagNamed (String b r)
      else NoFlag
  | _ => NoFlag
  end.
Definition settings := list (string * string).
(** main.go:27-32: the flags and their defaults *)
Definition defaults : settings := [("path", ""); ("output_file", ""); ("render_dir", "designs/"); ("output_dir", ""); ("compare_dir", "designs_rendered")].
(** flag Parse for flags with texts: the program ends (None) if a flag is not known, has no name or no value *)
Fixpoint parseFlags (s : settings) (args : list string) : option settings :=
  match args with
  | [] => Some s
  | a :: r =>
      match wordOf a with
      | NoFlag => Some s
      | BadFlag => None
      | Flag n v =>
          match lookup n s with
          | None => None
          | Some _ => match v with
                      | Some t => parseFlags (set n t s) r
                      | None => match r with [] => None | t :: r2 => parseFlags (set n t s) r2 end
                      end
          end
      end
  end.
Definition setting (s : settings) (n : string) : string := match lookup n s with Some t => t | None => "" end.

(** *** commands *)
(** how the program ends: with the usage, with a message and an exit status, after serving, after its work, after printing a number *)
Inductive ending := Usage | Exit | Served | Done | Counted (n : nat).

Section Main.
Variable isDir : string -> bool.
Variable clean : string -> string.
(** renderPlanSet, see Output.v *)
Variable rendered : string -> option (list string).
(** util/file.go:33-46 [FileList] of a directory with an extension, nothing if there is an error *)
Variable files : disk -> string -> string -> option (list string).
(** os.MkdirAll, whether it succeeds; it does not for the empty text *)
Variable canMake : string -> bool.
(** ioutil.TempDir *)
Variable temp : string.
Definition makeDir (p : string) : bool := negb (String.eqb p "") && canMake p.

(** main.go:212-239 [RenderAll]: nothing if there is an error; the output directory is one once it is made *)
Definition RenderDir (dir out : string) (d : disk) : option disk :=
  match files d dir "hfd" with
  | None => None
  | Some fs => if makeDir out then Some (RenderAll (fun p => String.eqb p out || isDir p) clean rendered out d fs) else None
  end.
(** util/file.go:11-23 [ClearDir]; its error is not looked at *)
Definition clearDir (dir e : string) (d : disk) : disk := match files d dir e with None => d | Some fs => fold_left remove fs d end.
(** main.go:139-149 [CompareDirectories]: nothing is compared if a directory cannot be listed *)
Definition compareDirs (left right e : string) (d : disk) : list report :=
  match files d left e, files d right e with Some l, Some r => CompareDirectories d l r | _, _ => [] end.

(** main.go:23-137 [main], on the words after the name of the program.  Saving does not fail, see Output.v. *)
Definition main (args : list string) (d : disk) : res (disk * ending) :=
  match args with
  | [] => Ok (d, Usage)
  | command :: rest =>
      match parseFlags defaults rest with
      | None => Ok (d, Exit)
      | Some s =>
          if String.eqb command "serve" then Ok (d, Served)
          else if String.eqb command "render" then
            match rest with
            | [] => Panic
            | first :: _ =>
                let rfn := if String.eqb (setting s "path") "" then first else setting s "path" in
                if String.eqb rfn "" then Ok (d, Exit)
                else match rendered rfn with
                     | None => Ok (d, Exit)
                     | Some sheets => Ok (save d (createFilename isDir clean (setting s "output_file") rfn) sheets, Done)
                     end
            end
          else if String.eqb command "render_all" then
            match RenderDir (setting s "render_dir") (setting s "output_dir") d with Some d' => Ok (d', Done) | None => Ok (d, Done) end
          else if String.eqb command "designs_updated" then
            let d1 := clearDir "designs_rendered" "svg" d in
            match RenderDir "designs" "designs_rendered" d1 with Some d' => Ok (d', Done) | None => Ok (d1, Done) end
          else if String.eqb command "diff_test" then
            let out := if String.eqb (setting s "output_dir") "" then temp else setting s "output_dir" in
            match RenderDir (setting s "render_dir") out d with
            | None => Ok (d, Done)
            | Some d' => Ok (d', Counted (diffCount (compareDirs (setting s "compare_dir") out "svg" d')))
            end
          else Ok (d, Usage)
      end
  end.
End Main.
