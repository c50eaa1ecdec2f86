(** Model of parameter lookup (dom/param_lookup.go, dom/models.go) and of the evaluation of expressions (dom/expression_eval.go). *)
From Coq Require Import String List ZArith Bool Ascii.
From Coq.Floats Require Import SpecFloat.
From Verif Require Import Num DynModel.
Import ListNotations.
Local Open Scope string_scope.
Local Open Scope list_scope.

(** dynmap/dynmap.go:725-753 [Get] on the entries of a map; [Get h a] is [mapGet h (hcell h a)] *)
Definition mapGet (h : heap) (l : list (string * val)) (key : string) : option val :=
  match lookup key l with
  | Some v => Some v
  | None => match splitDots key with [_] => None | ks => walk h l ks end
  end.

(** dom/models.go:70-77 BasicElement and 135-145 BasicComponent: the maps of an element, by address.  [e_doc] is the map
    doc.Context.Params of the document element.  Params() and Defaults() store what they find in the element (and Defaults() puts an entry
    "defaults" into the original map), which is not modelled: elements do not change during a lookup. *)
Record elem : Type := mkElem { e_params : option nat; e_orig : nat; e_defaults : option nat; e_doc : option nat }.
(** an element with its enclosing elements; [Orphan] is a component whose parent was not set (nil) *)
Inductive chain : Type := Root (e : elem) | Child (e : elem) (parent : chain) | Orphan (e : elem).
Definition self (c : chain) : elem := match c with Root e | Child e _ | Orphan e => e end.

(** dynmap/dynmap.go:424-430 [MustDynMap] with an empty default *)
Definition mustMap (h : heap) (a : nat) (key : string) : list (string * val) :=
  match Get h a key with Some v => match entries h v with Some l => l | None => [] end | None => [] end.
(** dom/models.go:91-96, 163-168 [Params] and 98-104, 169-175 [Defaults]: the stored map unless it is empty, or else the entry of the original map *)
Definition storedOr (h : heap) (o : option nat) (a : nat) (key : string) : list (string * val) :=
  match o with
  | Some b => match hcell h b with [] => mustMap h a key | l => l end
  | None => mustMap h a key
  end.
Definition Params (h : heap) (e : elem) := storedOr h (e_params e) (e_orig e) "params".
Definition Defaults (h : heap) (e : elem) := storedOr h (e_defaults e) (e_orig e) "defaults".

(** dom/param_lookup.go:352-379: the params, the original map, the document's params; then the entry "value" of a map that has one *)
Definition localGet (h : heap) (e : elem) (param : string) : option val :=
  let found := match mapGet h (Params h e) param with
               | Some v => Some v
               | None => match Get h (e_orig e) param with
                         | Some v => Some v
                         | None => match e_doc e with Some d => Get h d param | None => None end
                         end
               end in
  match found with
  | Some v => match entries h v with
              | Some l => match mapGet h l "value" with Some w => Some w | None => Some v end
              | None => Some v
              end
  | None => None
  end.

(** dom/expression_eval.go:19 and dom/param_lookup.go:20 *)
Definition maxRecursion : nat := 20.
Definition recursionMax : nat := 12.

(** dom/param_lookup.go:346-397 [localLookup].  Fuel counts nested calls; Ok None is not found. *)
Fixpoint localLookup (fuel : nat) (h : heap) (e : elem) (param : string) (recursion : nat) : res (option val) :=
  match fuel with
  | O => OutOfFuel
  | S f =>
      if Nat.ltb maxRecursion recursion then Ok None
      else match localGet h e param with
           | None => if Nat.ltb 0 recursion then Ok (Some (VStr param)) else Ok None
           | Some (VStr s) => localLookup f h e s (S recursion)
           | Some v => Ok (Some v)
           end
  end.

(** dom/param_lookup.go:398-416 [Lookup]; the parent of an orphan is nil, its use a panic *)
Fixpoint Lookup (fuel : nat) (h : heap) (c : chain) (param : string) : res (option val) :=
  bind (localLookup fuel h (self c) param 0) (fun o =>
    match o with
    | None => match c with
              | Root _ => Ok None
              | Child _ parent => Lookup fuel h parent param
              | Orphan _ => Panic
              end
    | Some (VStr s) => match c with
                       | Root _ => Ok o
                       | Child _ parent => bind (Lookup fuel h parent s) (fun o1 => match o1 with Some v1 => Ok (Some v1) | None => Ok o end)
                       | Orphan _ => Panic
                       end
    | Some _ => Ok o
    end).

(** dom/param_lookup.go:14-17 [Attr] *)
Record attr : Type := mkAttr { at_elem : chain; at_mp : nat }.

(** dom/param_lookup.go:82-92 [lookupDefault], with [realize] left open *)
Fixpoint lookupDefault (h : heap) (realize : string -> val -> nat -> res (option val)) (c : chain) (param : string) (recursion : nat) : res (option val) :=
  match mapGet h (Defaults h (self c)) param with
  | Some v => realize param v recursion
  | None => match c with
            | Root _ => Ok None
            | Child _ parent => lookupDefault h realize parent param (S recursion)
            | Orphan _ => Panic
            end
  end.

(** dom/param_lookup.go:59-80 [Attr.lookup] and 38-57 [Attr.realize] *)
Fixpoint attrLookup (fuel : nat) (h : heap) (b : attr) (param : string) (recursion : nat) : res (option val) :=
  match fuel with
  | O => OutOfFuel
  | S f =>
      if Nat.ltb recursionMax recursion then Ok None
      else
        let realize (param : string) (v : val) (recursion : nat) : res (option val) :=
          match v with
          | VStr s => if String.eqb s param then Ok None
                      else bind (attrLookup f h b s (S recursion)) (fun o => match o with Some v2 => Ok (Some v2) | None => Ok (Some (VStr s)) end)
          | _ => Ok (Some v)
          end in
        bind (match Get h (at_mp b) param with Some v => realize param v recursion | None => Ok None end) (fun o =>
          match o with
          | Some v2 => Ok (Some v2)
          | None => bind (Lookup f h (at_elem b) param) (fun o1 =>
                      match o1 with
                      | Some v => Ok (Some v)
                      | None => lookupDefault h realize (at_elem b) param recursion
                      end)
          end)
  end.

(** *** expressions *)
(** The expressions of the govaluate library (not part of the repository): variables, constants (among them texts), operators and calls. *)
Inductive expr : Type := EVar (name : string) | EConst (v : val) | EUn (op : string) (e : expr) | EBin (op : string) (e1 e2 : expr) | ECall (f : string) (args : list expr).
(** What is taken from libraries: the parser and operators of govaluate (operators evaluate both sides here), strconv.ParseFloat on trimmed text,
    fmt.Sprint, the numeric functions of the repository on converted arguments. *)
Record Lang : Type := mkLang {
  parse : string -> option expr;
  unop : string -> val -> option val;
  binop : string -> val -> val -> option val;
  parseFloat : string -> option spec_float;
  sprint : val -> string;
  numeric : string -> list spec_float -> val }.

Section Eval.
Context (L : Lang).

Fixpoint lower (s : string) : string :=
  match s with
  | EmptyString => EmptyString
  | String c r => let n := nat_of_ascii c in String (if (Nat.leb 65 n && Nat.leb n 90)%bool then ascii_of_nat (n + 32) else c) (lower r)
  end.
(** dynmap/typecast.go:29-46 [ToBool] *)
Definition ToBool (v : val) : option bool :=
  match v with
  | VBool b => Some b
  | VStr s => let t := lower s in
              if existsb (String.eqb t) ["true"; "t"; "yes"; "y"; "on"] then Some true
              else if existsb (String.eqb t) ["false"; "f"; "no"; "n"; "off"] then Some false else None
  | _ => None
  end.
(** float64 of an int64 *)
Definition floatOfZ (z : Z) : spec_float := binary_normalize 53 1024 z 0 false.
(** dynmap/typecast.go:69-84 [ToFloat64] *)
Definition dmFloat (v : val) : option spec_float :=
  match v with VFloat x => Some x | VInt z => Some (floatOfZ z) | VStr s => parseFloat L s | _ => None end.

(** strings.Replace(vt, "$", "", -1) *)
Fixpoint dropDollars (s : string) : string :=
  match s with EmptyString => EmptyString | String c r => if Ascii.eqb c "$"%char then dropDollars r else String c (dropDollars r) end.

(** What an evaluation gives: the value and the count pll.recursion, or None for an error (which ends everything that shares the count) *)
Definition evaluated : Type := res (option (val * nat)).

(** dom/param_lookup.go:441-454 [BasicParamLookerUpper.ToFloat64], with EvalExpression as [ev] *)
Definition toFloatWith (ev : string -> evaluated) (v : val) : res (option spec_float) :=
  match v with
  | VStr s => bind (ev (dropDollars s)) (fun o => match o with Some (w, _) => Ok (dmFloat w) | None => Ok None end)
  | _ => Ok (dmFloat v)
  end.
(** dom/param_lookup.go:133-152 [Attr.ToPoint] *)
Definition toPointWith (ev : string -> evaluated) (h : heap) (v : val) : res (option (spec_float * spec_float)) :=
  match entries h v with
  | None => Ok None
  | Some l =>
      let must k := match mapGet h l k with Some w => w | None => VStr "" end in
      bind (toFloatWith ev (must "x")) (fun ox =>
        match ox with
        | None => Ok None
        | Some x => bind (toFloatWith ev (must "y")) (fun oy => match oy with None => Ok None | Some y => Ok (Some (x, y)) end)
        end)
  end.
(** dom/expression_eval.go:71-94 [flatten] and [fl] *)
Fixpoint floatsWith (ev : string -> evaluated) (args : list val) : res (option (list spec_float)) :=
  match args with
  | [] => Ok (Some [])
  | a :: r => bind (toFloatWith ev a) (fun o =>
                match o with
                | None => Ok None
                | Some x => bind (floatsWith ev r) (fun o2 => match o2 with None => Ok None | Some l => Ok (Some (x :: l)) end)
                end)
  end.
Definition flattenArgs (args : list val) : list val := flat_map (fun a => match a with VSlice l => l | _ => [a] end) args.
(** dom/expression_eval.go:96-166: the functions; sqrt without arguments indexes an empty slice *)
Definition callWith (ev : string -> evaluated) (h : heap) (f : string) (args : list val) : res (option val) :=
  if String.eqb f "sqrt" then
    match args with
    | [] => Panic
    | a :: _ => bind (toFloatWith ev a) (fun o => match o with None => Ok None | Some x => Ok (Some (numeric L f [x])) end)
    end
  else if (String.eqb f "distance" || String.eqb f "angle")%bool then
    match flattenArgs args with
    | [a; b] => bind (toPointWith ev h a) (fun o => match o with
                  | None => Ok None
                  | Some p => bind (toPointWith ev h b) (fun o2 => match o2 with
                                None => Ok None | Some q => Ok (Some (numeric L f [fst p; snd p; fst q; snd q])) end)
                  end)
    | fa => bind (floatsWith ev fa) (fun o => match o with
              | Some [x1; y1; x2; y2] => Ok (Some (numeric L f [x1; y1; x2; y2]))
              | _ => Ok None
              end)
    end
  else if (String.eqb f "mmToInch" || String.eqb f "inchToMM")%bool then
    bind (floatsWith ev args) (fun o => match o with Some [x] => Ok (Some (numeric L f [x])) | _ => Ok None end)
  else Ok None.

(** govaluate's evaluation of a tree, with the variables as [get]; left to right, the count threaded through *)
Fixpoint evalTree (get : string -> nat -> evaluated) (call : string -> list val -> res (option val)) (e : expr) (cnt : nat) : evaluated :=
  match e with
  | EVar name => get name cnt
  | EConst v => Ok (Some (v, cnt))
  | EUn op e1 => bind (evalTree get call e1 cnt) (fun o => match o with
                   | None => Ok None
                   | Some (v, c) => match unop L op v with Some w => Ok (Some (w, c)) | None => Ok None end
                   end)
  | EBin op e1 e2 => bind (evalTree get call e1 cnt) (fun o => match o with
                   | None => Ok None
                   | Some (v, c) => bind (evalTree get call e2 c) (fun o2 => match o2 with
                                      | None => Ok None
                                      | Some (w, c2) => match binop L op v w with Some u => Ok (Some (u, c2)) | None => Ok None end
                                      end)
                   end)
  | ECall f args =>
      bind ((fix go (l : list expr) (c : nat) : res (option (list val * nat)) :=
               match l with
               | [] => Ok (Some ([], c))
               | e1 :: r => bind (evalTree get call e1 c) (fun o => match o with
                              | None => Ok None
                              | Some (v, c1) => bind (go r c1) (fun o2 => match o2 with None => Ok None | Some (vs, c2) => Ok (Some (v :: vs, c2)) end)
                              end)
               end) args cnt) (fun o => match o with
        | None => Ok None
        | Some (vs, c) => bind (call f vs) (fun o2 => match o2 with None => Ok None | Some v => Ok (Some (v, c)) end)
        end)
  end.

(** dom/expression_eval.go:21-54 [get]: the count is raised for every value that is itself an expression, and never lowered *)
Definition getWith (lookup : string -> res (option val)) (ev : string -> nat -> evaluated) (name : string) (cnt : nat) : evaluated :=
  bind (lookup name) (fun o =>
    match o with
    | None => Ok None
    | Some v => match ToBool v with
                | Some b => Ok (Some (VBool b, cnt))
                | None => match dmFloat v with
                          | Some x => Ok (Some (VFloat x, cnt))
                          | None => match v with VStr s => ev s (S cnt) | _ => Ok (Some (v, cnt)) end
                          end
                end
    end).

(** dom/expression_eval.go:60-175 [evalExp]; the functions call ToFloat64, which starts again with a count of 0 *)
Fixpoint evalExp (fuel : nat) (h : heap) (c : chain) (cnt : nat) (s : string) : evaluated :=
  match fuel with
  | O => OutOfFuel
  | S f =>
      if Nat.ltb maxRecursion cnt then Ok None
      else match parse L s with
           | None => Ok None
           | Some e => evalTree (getWith (Lookup f h c) (fun s' n => evalExp f h c n s')) (callWith (evalExp f h c 0) h) e cnt
           end
  end.
(** dom/expression_eval.go:177-184 [EvalExpression], dom/param_lookup.go:441-467 [ToFloat64], [Float64] *)
Definition ToFloat64 (fuel : nat) (h : heap) (c : chain) (v : val) : res (option spec_float) := toFloatWith (evalExp fuel h c 0) v.
Definition pluFloat64 (fuel : nat) (h : heap) (c : chain) (param : string) : res (option spec_float) :=
  bind (Lookup fuel h c param) (fun o => match o with None => Ok None | Some v => ToFloat64 fuel h c v end).
(** dom/param_lookup.go:309-320 [Attr.Float64] *)
Definition attrFloat64 (fuel : nat) (h : heap) (b : attr) (param : string) : res (option spec_float) :=
  bind (attrLookup fuel h b param 0) (fun o => match o with None => Ok None | Some v => ToFloat64 fuel h (at_elem b) v end).

(** dynmap/typecast.go:124-133 [ToString] *)
Definition ToString (v : val) : string := match v with VStr s => s | _ => sprint L v end.
(** strings.ContainsAny(v, " ,$") *)
Fixpoint plain (s : string) : bool :=
  match s with EmptyString => true | String c r => (negb (Ascii.eqb c " "%char || Ascii.eqb c ","%char || Ascii.eqb c "$"%char) && plain r)%bool end.
(** dom/param_lookup.go:252-263 [Attr.String] (with 425-431 [BasicParamLookerUpper.String]): text and whether it was found *)
Definition attrString (fuel : nat) (h : heap) (b : attr) (param : string) : res (string * bool) :=
  bind (attrLookup fuel h b param 0) (fun o =>
    match o with
    | None => Ok (sprint L VNil, false)
    | Some w => let v := ToString w in
                if plain v then bind (Lookup fuel h (at_elem b) v) (fun o2 => match o2 with Some u => Ok (ToString u, true) | None => Ok (v, true) end)
                else Ok (v, true)
    end).

(** strings.Split(str, ",") *)
Fixpoint splitCommas (s : string) : list string :=
  match s with
  | EmptyString => [EmptyString]
  | String c r => if Ascii.eqb c ","%char then EmptyString :: splitCommas r
                  else match splitCommas r with [] => [String c EmptyString] | w :: ws => String c w :: ws end
  end.
Definition dollar (s : string) : bool := match s with String c _ => Ascii.eqb c "$"%char | EmptyString => false end.
(** dom/param_lookup.go:154-218 [Attr.Point]; [cursor] is what a name starting with $ gives (the cursor of a component being rendered, or nothing) *)
Fixpoint attrPoint (fuel : nat) (h : heap) (cursor : string -> option (spec_float * spec_float)) (b : attr) (param : string) : res (option (spec_float * spec_float)) :=
  match fuel with
  | O => OutOfFuel
  | S f =>
      if dollar param then Ok (cursor param)
      else bind (attrLookup f h b param 0) (fun o =>
        match o with
        | None => Ok None
        | Some v => bind (toPointWith (evalExp f h (at_elem b) 0) h v) (fun op =>
            match op with
            | Some p => Ok (Some p)
            | None => match entries h v with
                      | Some _ => Ok None
                      | None => bind (attrString f h b param) (fun st =>
                          match splitCommas (fst st) with
                          | [w] => if String.eqb w param then Ok None else attrPoint f h cursor b w
                          | [w1; w2] => bind (ToFloat64 f h (at_elem b) (VStr w1)) (fun ox => match ox with
                                          | None => Ok None
                                          | Some x => bind (ToFloat64 f h (at_elem b) (VStr w2)) (fun oy => match oy with None => Ok None | Some y => Ok (Some (x, y)) end)
                                          end)
                          | _ => Ok None
                          end)
                      end
            end)
        end)
  end.
End Eval.
