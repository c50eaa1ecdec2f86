(** The repository's unit tests of maps (dynmap/dynmap_test.go, dynmap/sort_test.go), of parameters (dom/param_lookup_test.go) and of expressions
    (dom/expression_eval_test.go) run on the model.  Each goal is checked when this file is compiled; nothing is kept of it. *)
From Coq Require Import String Ascii List ZArith Bool.
From Coq.Floats Require Import SpecFloat.
From Verif Require Import Num FloatNum SvgParse DynModel DynRead Url ParamModel ExprFuncs Factories TestMath.
Import ListNotations.
Local Open Scope string_scope.
Local Open Scope list_scope.

Definition empty : heap := mkHeap 0 (fun _ => []).
(** fmt.Sprint of the values in the tests *)
Definition shown (v : val) : string := match v with VStr s => s | VInt z => (if Z.ltb z 0 then "-" else "") ++ natString (Z.abs_nat z) | VNil => "<nil>" | _ => "?" end.
Definition get (r : res heap) (a : nat) (k : string) : option val := match r with Ok h => Get h a k | _ => None end.
(** a map with these entries put in one after the other *)
Fixpoint puts (h : heap) (a : nat) (l : list (string * val)) : res heap :=
  match l with [] => Ok h | (k, v) :: r => bind (PutWithDot h a k v) (fun h' => puts h' a r) end.
Definition new (h : heap) (l : list (string * val)) : res (nat * heap) := let (a, h1) := alloc h in bind (puts h1 a l) (fun h2 => Ok (a, h2)).

(** dynmap/dynmap_test.go:34-42 TestPutAll *)
Goal (let (a, h) := alloc empty in let (h', ok) := PutAll h a (VStrMap [("key1", "val1"); ("key2", "key2")]) in (ok, Get h' a "key1", Get h' a "key2")) = (true, Some (VStr "val1"), Some (VStr "key2")).
Proof. vm_compute. reflexivity. Abort.
(** dynmap/dynmap_test.go:44-67 TestMerge *)
Goal bind (new empty [("this.that.test", VInt 80); ("this.eight", VInt 8); ("this.that.also", VInt 18)]) (fun x =>
     bind (new (snd x) [("this.that.test2", VInt 23); ("this.second", VInt 2)]) (fun y =>
     bind (Merge 100 (snd y) (fst x) (fst y)) (fun h => Ok (map (GetInt h (fst x)) ["this.that.test2"; "this.that.test"; "this.second"; "this.eight"])))) =
  Ok [Some 23; Some 80; Some 2; Some 8]%Z.
Proof. vm_compute. reflexivity. Abort.
(** dynmap/dynmap_test.go:69-98 TestFlatten *)
Goal bind (new empty [("this.that.test", VInt 80); ("this.eight", VInt 8); ("this.that.also", VInt 18)]) (fun x =>
     bind (Flatten 100 (snd x) (fst x)) (fun l => Ok (map (fun k => lookup k l) ["this.that.test"; "this.eight"]))) = Ok [Some (VInt 80); Some (VInt 8)].
Proof. vm_compute. reflexivity. Abort.
Goal bind (new empty []) (fun x => bind (new (snd x) [("key1.key2", VStr "blah")]) (fun y =>
     let h := AddToSliceWithDot (AddToSliceWithDot (snd y) (fst x) "something.array" [VMap (fst y)]) (fst x) "something.array" [VInt 2] in
     bind (Flatten 100 h (fst x)) (fun l => Ok (map (fun k => lookup k l) ["something.array.1"; "something.array.0.key1.key2"])))) = Ok [Some (VInt 2); Some (VStr "blah")].
Proof. vm_compute. reflexivity. Abort.
(** dynmap/dynmap_test.go:100-115 TestRemove *)
Goal bind (new empty [("this.that.test", VInt 80); ("this.eight", VInt 8); ("this.that.also", VInt 18)]) (fun x =>
     let h := fst (Remove (snd x) (fst x) "this.that.test") in Ok (map (GetInt h (fst x)) ["this.that.test"; "this.that.also"])) = Ok [None; Some 18%Z].
Proof. vm_compute. reflexivity. Abort.
(** dynmap/dynmap_test.go:137-155 TestURLEncode *)
Goal bind (new empty [("this.that.test", VInt 80); ("this.eight", VInt 8)]) (fun x =>
     bind (MarshalUrl shown 100 (snd x) (fst x)) (fun f => let (b, h) := alloc (snd x) in Ok (f, GetInt (UnmarshalUrlValues h b f) b "this.that.test"))) =
  Ok ([("this[that][test]", ["80"]); ("this[eight]", ["8"])], Some 80%Z).
Proof. vm_compute. reflexivity. Abort.
(** dynmap/dynmap_test.go:157-187 TestAddToSlice *)
Goal (let (a, h) := alloc empty in
      let h := AddToSliceWithDot h a "key.key2" [VStr "as"] in
      let h := AddToSlice h a "key2" [VStr "as2"] in
      let h := AddToSlice h a "key2" [VStr "as3"] in
      let h := AddToSlice h a "key2" [VStr "as4"; VStr "as5"] in
      (GetStringSlice shown h a "key.key2", GetStringSlice shown h a "key2")) = (Some ["as"], Some ["as2"; "as3"; "as4"; "as5"]).
Proof. vm_compute. reflexivity. Abort.
(** dynmap/sort_test.go:8-25 TestDynMapSort: the map with "z" is not before any of the others, each of which is before it *)
Definition five : heap := mkHeap 5 (fun a => match a with 0 => [("test", VStr "z")] | 1 => [("test", VStr "x")] | 2 => [("test", VStr "w")] | 3 => [("test", VStr "n")] | 4 => [("test", VStr "m")] | _ => [] end).
Goal map (fun b => (SliceLess shown five "test" 0 b, SliceLess shown five "test" b 0)) [1; 2; 3; 4] = repeat (false, true) 4.
Proof. vm_compute. reflexivity. Abort.

(** *** parameters and expressions *)
(** What govaluate makes of the texts in the tests (the library is not modelled) *)
Definition num (m e : Z) : expr := EConst (VFloat (flt m e)).
Definition trees : list (string * expr) := [
  ("12", num 12 0);
  ("finger_width / 2", EBin "/" (EVar "finger_width") (num 2 0));
  ("distance(from, to)", ECall "distance" [EVar "from"; EVar "to"]);
  ("1.0 + sqrt(36)", EBin "+" (num 10 (-1)) (ECall "sqrt" [num 36 0]));
  ("1.0 + sqrt(finger_height)", EBin "+" (num 10 (-1)) (ECall "sqrt" [EVar "finger_height"]));
  ("finger_height + 0.4", EBin "+" (EVar "finger_height") (num 4 (-1)));
  ("finger_height + 10", EBin "+" (EVar "finger_height") (num 10 0));
  ("test + 1", EBin "+" (EVar "test") (num 1 0));
  ("2 * test", EBin "*" (num 2 0) (EVar "test"));
  ("0-1 * test", EBin "-" (num 0 0) (EBin "*" (num 1 0) (EVar "test")));
  ("test2 * -1", EBin "*" (EVar "test2") (EUn "-" (num 1 0)));
  ("6.3", num 63 (-1));
  ("6 + 76 + 10", EBin "+" (EBin "+" (num 6 0) (num 76 0)) (num 10 0));
  ("( 1 + 2.006 ) - .13", EBin "-" (EBin "+" (num 1 0) (num 2006 (-3))) (num 13 (-2)));
  ("-0.4", EUn "-" (num 4 (-1)))].
Definition two (op : string) (x y : f) : option val :=
  if String.eqb op "+" then Some (VFloat (add (n := FNum) x y)) else if String.eqb op "-" then Some (VFloat (Num.sub (n := FNum) x y))
  else if String.eqb op "*" then Some (VFloat (mul (n := FNum) x y)) else if String.eqb op "/" then Some (VFloat (div (n := FNum) x y)) else None.
Fixpoint name (s : string) : bool := match s with EmptyString => true | String c r => (let n := nat_of_ascii c in Nat.leb 97 n && Nat.leb n 122 || Nat.leb 48 n && Nat.leb n 57 || Nat.eqb n 95) && name r end.
Definition testLang : Lang := mkLang
  (fun s => match lookup s trees with Some e => Some e | None => if name s then Some (EVar s) else None end)
  (fun op v => match v with VFloat x => if String.eqb op "-" then Some (VFloat (opp (n := FNum) x)) else None | _ => None end)
  (fun op v w => match v, w with VFloat x, VFloat y => two op x y | _, _ => None end)
  (fun s => @SvgParse.ToFloat64 FNum s) shown (goNumeric testTrig).
(** dom/expression_eval_test.go:29-37 mockElement: an element with parameters (the map 0) and an empty map of its own (the map 1); points are the maps 2 and 3 *)
Definition mock : chain := Root (mkElem (Some 0) 1 None None).
Definition heapOf (params own : list (string * val)) (more : list (list (string * val))) : heap :=
  mkHeap (2 + List.length more) (fun a => match a with 0 => params | 1 => own | S (S n) => nth n more [] end).
Definition point (x y : Z) : list (string * val) := [("x", VFloat (flt x 0)); ("y", VFloat (flt y 0))].
Definition eval (params : list (string * val)) (s : string) : res (option spec_float) :=
  bind (evalExp testLang 100 (heapOf params [] [point 0 0; point 0 1]) mock 0 s) (fun o => Ok (match o with Some (VFloat x, _) => Some x | _ => None end)).
Definition is (r : res (option spec_float)) (m e : Z) : bool := match r with Ok (Some x) => Num.eqb (n := FNum) x (flt m e) | _ => false end.
Definition missing (r : res (option spec_float)) : bool := match r with Ok None => true | _ => false end.

(** dom/expression_eval_test.go:10-27 TestDistancePoints, 39-54 TestFunctions *)
Goal is (eval [("from", VMap 2); ("to", VMap 3)] "distance(from, to)") 1 0 = true. Proof. vm_compute. reflexivity. Abort.
Goal map (fun s => is (eval [("finger_height", VInt 36)] s) 7 0) ["1.0 + sqrt(36)"; "1.0 + sqrt(finger_height)"] = [true; true]. Proof. vm_compute. reflexivity. Abort.
(** 56-69 TestExpressionRecursion, 71-83 TestExpressionNested *)
Goal missing (eval [("test", VStr "test3"); ("test2", VStr "test"); ("test3", VStr "test2"); ("finger_height", VFloat (flt 6 (-1)))] "test2") = true. Proof. vm_compute. reflexivity. Abort.
Goal is (eval [("test", VStr "finger_height + 0.4"); ("test2", VStr "test"); ("finger_height", VFloat (flt 6 (-1)))] "test2") 1 0 = true. Proof. vm_compute. reflexivity. Abort.
(** 101-137 TestExpressionEvalVariableParser *)
Definition vars : list (string * val) := [("test", VFloat (flt 4 (-1))); ("finger_height", VFloat (flt 6 (-1))); ("test2", VStr "test")].
Goal [is (eval vars "test") 4 (-1); is (eval vars "finger_height + 10") 106 (-1); is (eval vars "test + 1") 14 (-1); is (eval vars "2 * test") 8 (-1); is (eval vars "0-1 * test") (-4) (-1); is (eval vars "test2 * -1") (-4) (-1)] = repeat true 6.
Proof. vm_compute. reflexivity. Abort.
(** 138-176 TestEvalExpressionParser *)
Goal [is (eval [] "6.3") 63 (-1); is (eval [] "6 + 76 + 10") 92 0; is (eval [] "( 1 + 2.006 ) - .13") 2876 (-3); is (eval [] "-0.4") (-4) (-1)] = repeat true 4. Proof. vm_compute. reflexivity. Abort.

(** dom/param_lookup_test.go:10-31 TestDynMapPointIndirectLookup, 57-78 TestSameNamePointLookup: a local variable is an entry of the parameters *)
Definition pointIs (r : res (option (spec_float * spec_float))) (x y : Z) : bool := match r with Ok (Some (u, v)) => Num.eqb (n := FNum) u (flt x 0) && Num.eqb (n := FNum) v (flt y 0) | _ => false end.
Goal pointIs (attrPoint testLang 100 (heapOf [("from", VMap 3)] [] [[("to", VStr "from")]; point 1 1]) (fun _ => None) (mkAttr mock 2) "to") 1 1 = true. Proof. vm_compute. reflexivity. Abort.
Goal pointIs (attrPoint testLang 100 (heapOf [("to", VMap 3)] [] [[("to", VStr "to")]; point 1 1]) (fun _ => None) (mkAttr mock 2) "to") 1 1 = true. Proof. vm_compute. reflexivity. Abort.
(** 33-55 TestDynMapPointLookup *)
Goal pointIs (attrPoint testLang 100 (heapOf [] [("finger_width", VInt 12)] [[("to", VMap 3)]; [("x", VStr "12"); ("y", VStr "finger_width / 2")]]) (fun _ => None) (mkAttr (Root (mkElem None 1 None None)) 2) "to") 12 6 = true. Proof. vm_compute. reflexivity. Abort.
(** 80-104 TestLookup *)
Definition indexed : list (string * val) := [("index", VInt 1); ("test", VStr "index")].
Goal is (ParamModel.ToFloat64 testLang 100 (heapOf indexed [] []) mock (VStr "index")) 1 0 && is (attrFloat64 testLang 100 (heapOf indexed [] []) (mkAttr mock 0) "test") 1 0 = true. Proof. vm_compute. reflexivity. Abort.
(** 106-129 TestStringLookup, 131-155 TestSvgLookup *)
Goal attrString testLang 100 (heapOf [("index", VStr "this is a string"); ("test", VStr "index")] [] []) (mkAttr mock 0) "test" = Ok ("this is a string", true). Proof. vm_compute. reflexivity. Abort.
Goal attrString testLang 100 (heapOf [("svg", VStr "test"); ("test", VStr "index")] [("index", VStr "L 12 12 M 0 0")] []) (mkAttr mock 0) "svg" = Ok ("L 12 12 M 0 0", true). Proof. vm_compute. reflexivity. Abort.
