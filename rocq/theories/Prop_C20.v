(** C20: packed parts never overlap and never leave the sheet. *)
From Coq Require Import List ZArith Bool Reals Lra Lia.
From Coq.Floats Require Import SpecFloat.
From Flocq Require Import Core.
From Verif Require Import Num FloatNum RealNum PrecisionProofs IeeeProofs IeeeArith BinPack BinPackProofs BinPackGeom BinPackFloat Witness.
Import ListNotations.
Local Open Scope R_scope.

(** After any history of Insert calls of positive size on a container: every call returns; a placed part has its
    requested size or that size with the sides exchanged ([asRequested]), lies inside the container ([within]),
    and no point is strictly inside two placed parts ([disjoint]).  Exact arithmetic. *)
Theorem C20_packing : forall (O : Type) (x y w h : R) (reqs : list (O * T RNum * T RNum)),
  0 <= w -> 0 <= h -> Forall posReq reqs ->
  exists ans b', inserts 3 (NewContainer (Fin x : T RNum) (Fin y : T RNum) (Fin w : T RNum) (Fin h : T RNum) : bin RNum O) reqs = Ok (ans, b') /\
    Forall2 (fun q a => match a with
                        | Some (r, _) => asRequested q r /\ within r (@mkRect RNum (Fin x) (Fin y) (Fin w) (Fin h))
                        | None => True end) reqs ans /\
    pairwise (fun a a' => match a, a' with Some (r, _), Some (r', _) => disjoint r r' | _, _ => True end) ans.
Proof.
  intros O x y w h reqs Hw Hh Hr. destruct (container_history 0 x y w h reqs Hw Hh Hr) as (ans & b' & E & _ & S & D & _).
  exists ans, b'. auto.
Qed.
Print Assumptions C20_packing.

(** binary64: the size returned compares == to the requested one, bit for bit (positions are rounded sums there). *)
Theorem C20_size_binary64 : forall (O : Type) (o : O) (w h : T FNum) (b : bin FNum O),
  pos FNum_pack w -> pos FNum_pack h -> binFin FNum_pack b ->
  forall r rot b', Insert 3 b o w h = Ok (Some (r, rot), b') ->
  (eqb (rw r) w = true /\ eqb (rh r) h = true) \/ (eqb (rw r) h = true /\ eqb (rh r) w = true).
Proof.
  intros O o w h b Pw Ph Hb r rot b' E.
  destruct (Insert_spec FNum_pack o w h 0 Pw Ph b Hb) as [(r' & rot' & b1 & E1 & _ & S & _)|[E1 _]]; rewrite E1 in E; [|discriminate].
  injection E as <- <- <-. exact S.
Qed.
Print Assumptions C20_size_binary64.

(** the data of a list of answers: x, y, width, height, rotated *)
Definition dans (r : res (list (placement (N:=FNum)) * bin FNum nat)) : res (list (option (list spec_float * bool))) :=
  match r with
  | Ok (l, _) => Ok (map (fun a => match a with Some (r, rot) => Some ([rx r; ry r; rw r; rh r], rot) | None => None end) l)
  | Err => Err | Panic => Panic | OutOfFuel => OutOfFuel
  end.

(** three parts on a 10 x 20 sheet: 4x5, 5x8 and one that does not fit any more *)
Example C20_example :
  dans (inserts 3 (NewContainer (fz 0) (fz 0) (fz 10) (fz 20)) [(1%nat, fz 4, fz 5); (2%nat, fz 12, fz 6); (3%nat, fz 9, fz 19)])
  = Ok [Some ([fz 0; fz 0; fz 4; fz 5], false); Some ([fz 0; fz 5; fz 6; fz 12], true); None].
Proof. vm_compute. reflexivity. Qed.

Example C20_example_hyp :
  Forall posReq [(1%nat, Fin 4 : T RNum, Fin 5 : T RNum); (2%nat, Fin 12 : T RNum, Fin 6 : T RNum)].
Proof.
  repeat constructor; [exists 4, 5|exists 12, 6]; (split; [eexists; reflexivity|lra]).
Qed.
Example C20_size_example : pos FNum_pack (fz 12) /\ pos FNum_pack (fz 6) /\ binFin FNum_pack (NewContainer (fz 0) (fz 0) (fz 10) (fz 20) : bin FNum nat) /\
  match Insert 3 (NewContainer (fz 0) (fz 0) (fz 10) (fz 20)) 1%nat (fz 12) (fz 6) with Ok (Some (r, _), _) => [rw r; rh r] | _ => [] end = [fz 6; fz 12].
Proof. repeat split; vm_compute; reflexivity. Qed.

(** ** binary64 *)
(** A container of finite numbers and any number [n] of positive finite requests.  If all coordinates stay below 2^e even with [n]
    roundings, the calls return, every placed part has its requested size (possibly exchanged), sticks out of the container by
    at most 2 n roundings of 2^(e - 54), and any two overlap by at most 2 n + 1 such roundings. *)
Theorem C20_binary64 : forall (O : Type) (e : Z) (x y w h : T FNum) (reqs : list (O * T FNum * T FNum)) (n := INR (List.length reqs)),
  (-1020 <= e <= 1023)%Z -> gofin x -> gofin y -> gofin w -> gofin h -> 0 <= fval x -> 0 <= fval y -> 0 <= fval w -> 0 <= fval h ->
  fval x + fval w + 2 * n * bpow radix2 (e - 54) <= bpow radix2 e -> fval y + fval h + 2 * n * bpow radix2 (e - 54) <= bpow radix2 e ->
  Forall (reqOk FNum_pack) reqs ->
  exists ans b', inserts 3 (NewContainer x y w h : bin FNum O) reqs = Ok (ans, b') /\
    Forall2 (fun q a => match a with
                        | Some (r, _) => sizeF q r /\ withinF (2 * n * bpow radix2 (e - 54)) r (mkRect x y w h)
                        | None => True end) reqs ans /\
    pairwise (fun a a' => match a, a' with Some (r, _), Some (r', _) => apartF ((2 * n + 1) * bpow radix2 (e - 54)) r r' | _, _ => True end) ans.
Proof.
  intros O e x y w h reqs n He Gx Gy Gw Gh X0 Y0 W0 H0 BX BY Hr.
  destruct (inserts_fin FNum_pack 0 reqs Hr (NewContainer x y w h)) as (ans & b' & E & _ & Ln). { split; assumption. }
  exists ans, b'. split; [exact E|].
  assert (HK : (List.length (placedF ans) <= List.length reqs)%nat). { rewrite <- Ln. clear. induction ans as [|[[r rot]|] l IH]; cbn [placedF List.length]; lia. }
  destruct (container_F e He x y w h (List.length reqs) Gx Gy Gw Gh X0 Y0 W0 H0 BX BY reqs ans b' Hr E HK) as [S A]. split; [|exact A].
  clear - S. induction S as [|q a l l' Hq S IH]; constructor; [|assumption]. destruct a as [[r rot]|]; [|exact I]. destruct Hq as (H1 & H2 & _). split; assumption.
Qed.
Print Assumptions C20_binary64.

(** k/10, rounded *)
Definition tenth (k : Z) : T FNum := div (n:=FNum) (fz k) (fz 10).
(** the hypotheses hold, for a sheet 1 wide and high, for three parts 0.1, 0.7 and 0.1 wide, with e = 1 *)
Example C20_binary64_example_hyp : gofin (fz 0) /\ gofin (fz 1) /\ fval (fz 0) + fval (fz 1) + 2 * INR 3 * bpow radix2 (1 - 54) <= bpow radix2 1 /\
  Forall (reqOk FNum_pack) [(1%nat, tenth 1, fz 1); (2%nat, tenth 7, fz 1); (3%nat, tenth 1, fz 1)].
Proof.
  split; [split; reflexivity|]. split; [split; reflexivity|]. split.
  - change (fz 0) with (S754_zero false). change (fz 1) with (S754_finite false 4503599627370496 (-52)). unfold fval. simpl. lra.
  - repeat constructor; vm_compute; reflexivity.
Qed.
(** and some rounding cannot be avoided: the second part ends at 7205759403792793.25/2^53, the third begins at 7205759403792793/2^53 *)
Example C20_binary64_example :
  dans (inserts 3 (NewContainer (fz 0) (fz 0) (fz 1) (fz 1)) [(1%nat, tenth 1, fz 1); (2%nat, tenth 7, fz 1); (3%nat, tenth 1, fz 1)])
  = Ok [Some ([fz 0; fz 0; S754_finite false 7205759403792794 (-56); fz 1], false);
        Some ([S754_finite false 7205759403792794 (-56); fz 0; S754_finite false 6305039478318694 (-53); fz 1], false);
        Some ([S754_finite false 7205759403792793 (-53); fz 0; S754_finite false 7205759403792794 (-56); fz 1], false)] /\
  fval (S754_finite false 7205759403792794 (-56)) + fval (S754_finite false 6305039478318694 (-53)) = fval (S754_finite false 7205759403792793 (-53)) + bpow radix2 (1 - 56).
Proof. split; [vm_compute; reflexivity|]. unfold fval. simpl. lra. Qed.
