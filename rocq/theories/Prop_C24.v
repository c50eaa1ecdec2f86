(** C24: Insert succeeds exactly when some free rectangle is large enough. *)
From Coq Require Import List ZArith Bool Reals Lra.
From Coq.Floats Require Import SpecFloat.
From Verif Require Import Num NumLaws FloatNum RealNum IeeeArith BinPack BinPackProofs BinPackGeom Witness.
Import ListNotations.

(** For every float type with the laws of [PackLaws]: Insert returns (three levels of recursion, i.e. at most two
    splits); it places the part in the FIRST free rectangle, left to right, that is large enough in one
    orientation, at that rectangle's corner; and refuses exactly when there is none. *)
Lemma Insert_iff : forall (N : Num) (L : PackLaws N) (O : Type) (o : O) (w h : T N) (b : bin N O),
  pos L w -> pos L h -> binFin L b ->
  exists ans b', Insert 3 b o w h = Ok (ans, b') /\
    (ans <> None <-> exists e, In e (getEmpties b) /\ fits2 e w h) /\
    (forall r rot, ans = Some (r, rot) ->
       exists l1 e l2, getEmpties b = l1 ++ e :: l2 /\ Forall (fun x => ~ fits2 x w h) l1 /\ fits2 e w h /\ rx r = rx e /\ ry r = ry e).
Proof.
  intros N L O o w h b Pw Ph Hb.
  destruct (Insert_spec L o w h 0 Pw Ph b Hb) as [(r' & rot' & b1 & E1 & _ & _ & l1 & e & l2 & El & F1 & Fe & Hx & Hy & _)|[E1 Fn]]; rewrite E1.
  - eexists _, _. split; [reflexivity|]. split.
    + split; [|discriminate]. intros _. exists e. split; [rewrite El; apply in_or_app; right; left; reflexivity|exact Fe].
    + intros r rot Q. injection Q as <- <-. exists l1, e, l2. auto.
  - eexists _, _. split; [reflexivity|]. split.
    + split; [congruence|]. intros (e & He & Hf). rewrite Forall_forall in Fn. exfalso. exact (Fn e He Hf).
    + discriminate.
Qed.

(** every container reached by inserts of positive finite size from a container of finite size: exact arithmetic *)
Theorem C24_insert_complete_R : forall (O : Type) (x y W H : T RNum) (history : list (O * T RNum * T RNum)) (o : O) (w h : T RNum) ans b,
  fin RNum_pack W -> fin RNum_pack H -> Forall (reqOk RNum_pack) history ->
  inserts 3 (NewContainer x y W H) history = Ok (ans, b) -> pos RNum_pack w -> pos RNum_pack h ->
  exists a b', Insert 3 b o w h = Ok (a, b') /\
    (a <> None <-> exists e, In e (getEmpties b) /\ fits2 e w h) /\
    (forall r rot, a = Some (r, rot) ->
       exists l1 e l2, getEmpties b = l1 ++ e :: l2 /\ Forall (fun x => ~ fits2 x w h) l1 /\ fits2 e w h /\ rx r = rx e /\ ry r = ry e).
Proof.
  intros O x y W H hist o w h ans b FW FH Hq E Pw Ph. apply (Insert_iff RNum RNum_pack); auto.
  destruct (inserts_fin RNum_pack 0 hist Hq (NewContainer x y W H : bin RNum O)) as (ans' & b' & E' & Hb & _); [split; assumption|].
  rewrite E in E'. injection E' as <- <-. exact Hb.
Qed.
Print Assumptions C24_insert_complete_R.

(** the same for binary64, rounding included *)
Theorem C24_insert_complete_binary64 : forall (O : Type) (x y W H : T FNum) (history : list (O * T FNum * T FNum)) (o : O) (w h : T FNum) ans b,
  fin FNum_pack W -> fin FNum_pack H -> Forall (reqOk FNum_pack) history ->
  inserts 3 (NewContainer x y W H) history = Ok (ans, b) -> pos FNum_pack w -> pos FNum_pack h ->
  exists a b', Insert 3 b o w h = Ok (a, b') /\
    (a <> None <-> exists e, In e (getEmpties b) /\ fits2 e w h) /\
    (forall r rot, a = Some (r, rot) ->
       exists l1 e l2, getEmpties b = l1 ++ e :: l2 /\ Forall (fun x => ~ fits2 x w h) l1 /\ fits2 e w h /\ rx r = rx e /\ ry r = ry e).
Proof.
  intros O x y W H hist o w h ans b FW FH Hq E Pw Ph. apply (Insert_iff FNum FNum_pack); auto.
  destruct (inserts_fin FNum_pack 0 hist Hq (NewContainer x y W H : bin FNum O)) as (ans' & b' & E' & Hb & _); [split; assumption|].
  rewrite E in E'. injection E' as <- <-. exact Hb.
Qed.
Print Assumptions C24_insert_complete_binary64.

(** the history itself always returns *)
Theorem C24_history_returns_binary64 : forall (O : Type) (x y W H : T FNum) (history : list (O * T FNum * T FNum)),
  fin FNum_pack W -> fin FNum_pack H -> Forall (reqOk FNum_pack) history ->
  exists ans b, inserts 3 (NewContainer x y W H) history = Ok (ans, b) /\ length ans = length history.
Proof.
  intros O x y W H hist FW FH Hq.
  destruct (inserts_fin FNum_pack 0 hist Hq (NewContainer x y W H : bin FNum O)) as (ans & b & E & _ & Hl); [split; assumption|].
  exists ans, b. auto.
Qed.
Print Assumptions C24_history_returns_binary64.

(** Finding: without finite sizes the recursion does not end.  In a container of NaN width every comparison
    is false, so each level splits again: no amount of recursion suffices (Go overflows its stack). *)
Lemma nan_leaf_loops fuel : forall x y rot, 
  leafInsert (O:=nat) fuel (@mkRect FNum x y fnan (fz 1)) rot None 1%nat (fz 1 : T FNum) (fz 1) = OutOfFuel.
Proof.
  induction fuel as [|f IH]; intros x y rot; [reflexivity|]. cbn [leafInsert].
  change (eqb (n:=FNum) (fz 1) zero || eqb (n:=FNum) (fz 1) zero || isnan (n:=FNum) (fz 1) || isnan (n:=FNum) (fz 1)) with false. cbv iota.
  change (tooSmall (@mkRect FNum x y fnan (fz 1)) (fz 1) (fz 1)) with false. cbv iota zeta. cbn [andb rx ry rw rh].
  change (eqb (n:=FNum) (fz 1) (fz 1) && eqb (n:=FNum) fnan (fz 1)) with false. cbv iota.
  change (gtb (N:=FNum) (sub fnan (fz 1)) (sub (fz 1) (fz 1))) with false. cbv iota beta.
  rewrite IH. reflexivity.
Qed.
Theorem C24_nan_container_refuted : forall fuel (x y : T FNum),
  Insert fuel (NewContainer x y (fnan : T FNum) (fz 1) : bin FNum nat) 1%nat (fz 1) (fz 1) = OutOfFuel.
Proof. intros fuel x y. apply nan_leaf_loops. Qed.
Print Assumptions C24_nan_container_refuted.

(** the third level is needed: a 4 x 5 part on a 10 x 20 sheet is split off in two cuts *)
Example C24_example :
  match Insert 3 (NewContainer (fz 0) (fz 0) (fz 10) (fz 20)) 1%nat (fz 4) (fz 5) with
  | Ok (Some (r, _), b) => Some ([rw r; rh r], map (fun e => [rx e; ry e; rw e; rh e]) (getEmpties b))
  | _ => None end
  = Some ([fz 4; fz 5], [[fz 4; fz 0; fz 6; fz 5]; [fz 0; fz 5; fz 10; fz 15]] : list (list spec_float)).
Proof. vm_compute. reflexivity. Qed.
Example C24_two_levels_do_not :
  match Insert 2 (NewContainer (fz 0) (fz 0) (fz 10) (fz 20)) 1%nat (fz 4) (fz 5) with OutOfFuel => true | _ => false end = true.
Proof. vm_compute. reflexivity. Qed.

(** two parts on that sheet leave three free rectangles *)
Definition sheet24 : bin FNum nat := NewContainer (fz 0) (fz 0) (fz 10) (fz 20).
Example C24_hypotheses : fin FNum_pack (fz 10) /\ fin FNum_pack (fz 20) /\ Forall (reqOk FNum_pack) [(1%nat, fz 4, fz 5); (2%nat, fz 12, fz 6)] /\
  match inserts 3 sheet24 [(1%nat, fz 4, fz 5); (2%nat, fz 12, fz 6)] with Ok (ans, b) => (List.length ans, List.length (getEmpties b)) | _ => (0, 0)%nat end = (2, 3)%nat.
Proof.
  split; [repeat split; vm_compute; reflexivity|]. split; [repeat split; vm_compute; reflexivity|]. split; [|vm_compute; reflexivity].
  repeat (apply Forall_cons || apply Forall_nil); repeat split; vm_compute; reflexivity.
Qed.
