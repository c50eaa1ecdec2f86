(** Model of how a request is answered: renderPlanSet and processRequest of main.go. *)
From Coq Require Import String Ascii List ZArith NArith Bool.
From Verif Require Import Num DynModel Url Output.
Import ListNotations.
Local Open Scope string_scope.

(** main.go:253-254, in [renderPlanSet]: the params of the design [dm] are replaced by a copy of them with the params of the request merged in *)
Definition withParams (fuel : nat) (h : heap) (dm req : nat) : res heap :=
  let '(pm, h0) := match GetDynMap h dm "params" with Some x => x | None => alloc h end in
  bind (Clone fuel h0 pm) (fun '(c, h1) => bind (Merge fuel h1 c req) (fun h2 => Ok (Put h2 dm "params" (VMap c)))).

(** net/http: the header of an answer is the one at the time of the first write; later changes have no effect *)
Record answer := mkAnswer { a_header : list (string * string); a_sent : option (list (string * string)); a_body : string }.
Definition emptyAnswer : answer := mkAnswer [] None "".
Definition send (w : answer) (s : string) : answer := mkAnswer (a_header w) (match a_sent w with Some x => Some x | None => Some (a_header w) end) (a_body w ++ s).
Definition setHeader (w : answer) (k v : string) : answer := mkAnswer (set k v (a_header w)) (a_sent w) (a_body w).

Section Serve.
Variable isDir : string -> bool.
Variable clean : string -> string.
(** strconv.ParseInt and the other conversions of dynmap/typecast.go:86-122 [ToInt64] *)
Variable toInt : val -> option Z.
(** fmt.Sprint of a value that is not a string *)
Variable show : val -> string.
(** main.go:241-268 [renderPlanSet]: the texts of the sheets of a file for the params of a request, nothing if there is an error *)
Variable rendered : string -> heap -> nat -> option (list string).

(** dynmap/dynmap.go:350-360 [GetString]: an empty text is none; 364-370 [MustString] *)
Definition getText (h : heap) (a : nat) (key : string) : option string :=
  match Get h a key with Some w => let s := toText show w in if String.eqb s "" then None else Some s | None => None end.
(** dynmap/dynmap.go:287-301 [MustInt] [GetInt] with 0 *)
Definition getInt (h : heap) (a : nat) (key : string) : Z := match Get h a key with Some v => match toInt v with Some z => z | None => 0%Z end | None => 0%Z end.
(** main.go:336-368 [processRequest]: the disk and the answer after a request with the fields [f]; indexing svgDocs out of its range panics *)
Definition processRequest (f : form) (d : disk) : res (disk * answer) :=
  let '(b, h0) := alloc (mkHeap 0 (fun _ => [])) in
  let h := UnmarshalUrlValues h0 b f in
  let filename := match getText h b "file" with Some s => s | None => "dom/testdata/box_test.hfd" end in
  match rendered filename h b with
  | None => Ok (d, emptyAnswer)
  | Some sheets =>
      let i := getInt h b "index" in
      match (if (i <? 0)%Z then None else nth_error sheets (Z.to_nat i)) with
      | None => Panic
      | Some t =>
          let w := setHeader (send emptyAnswer t) "Content-Type" "image/svg+xml" in
          match getText h b "save_file" with
          | Some s => Ok (save d (createFilename isDir clean filename s) sheets, w)
          | None => Ok (d, w)
          end
      end
  end.
End Serve.
