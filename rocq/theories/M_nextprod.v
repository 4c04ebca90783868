(* M_nextprod.v: model of nextpow and nextprod of stingray/pulse/overlapandsave/ols.py, on exact integers (the code has
   floats holding integers). *)
From Verif Require Import Np M_utils.

(* ols.py:62-81 nextpow for integers a > 1, x > 0: a**ceil(log(x, a)) with an exact logarithm (the correction by one power
   for rounding errors of math.log is not needed then) *)
Fixpoint nextpow_from (fuel : nat) (a x p : Z) : Z :=
  match fuel with
  | O => p
  | S fuel => if (x <=? p)%Z then p else nextpow_from fuel a x (p * a)%Z
  end.
Definition nextpow (a x : Z) : result Z :=
  if ((0 <? x) && (1 <? a))%Z%bool then Ok (nextpow_from (Z.to_nat x) a x 1) else Err AssertionError.

(* ols.py:84-120 nextprod.  p // v[icarry - 1] divides exactly. *)
Definition set_nth (l : list Z) (i : nat) (y : Z) : list Z := firstn i l ++ y :: skipn (S i) l.
(* the while carrytest loop; i is icarry - 1 *)
Fixpoint carry_loop (fuel : nat) (a mx v : list Z) (p : Z) (i : nat) : result (list Z * Z * nat) :=
  match fuel with
  | O => Err OutOfFuel
  | S fuel =>
    let! vi := get v i in
    let p := (p / vi)%Z in
    let v := set_nth v i 1%Z in
    let i := S i in
    let! ai := get a i in
    let! vi := get v i in
    let! mi := get mx i in
    let p := (p * ai)%Z in
    let v := set_nth v i (vi * ai)%Z in
    if ((mi <? vi * ai)%Z && Nat.ltb (S i) (length a))%bool then carry_loop fuel a mx v p i else Ok (v, p, i)
  end.
(* while p < x *)
Fixpoint raise_loop (fuel : nat) (a0 x : Z) (v0 p : Z) : result (Z * Z) :=
  if (p <? x)%Z then
    match fuel with
    | O => Err OutOfFuel
    | S fuel => raise_loop fuel a0 x (v0 * a0) (p * a0)
    end
  else Ok (v0, p).
(* while v[-1] < mx[-1] *)
Fixpoint nextprod_loop (fuel : nat) (a mx : list Z) (x : Z) (v : list Z) (p best : Z) (i : nat) : result Z :=
  let! vl := get_last v in
  let! ml := get_last mx in
  if (vl <? ml)%Z then
    match fuel with
    | O => Err OutOfFuel
    | S fuel =>
      if (x <=? p)%Z then
        let best := if (p <? best)%Z then p else best in
        let! r := carry_loop (length a) a mx v p i in
        let '(v, p, i) := r in
        nextprod_loop fuel a mx x v p best (if (p <? x)%Z then 0%nat else i)
      else
        let! a0 := get a 0 in
        let! v0 := get v 0 in
        let! r := raise_loop (Z.to_nat x) a0 x v0 p in
        nextprod_loop fuel a mx x (set_nth v 0 (fst r)) (snd r) best i
    end
  else Ok (if (ml <? best)%Z then ml else best).
Definition nextprod (fuel : nat) (a : list Z) (x : Z) : result Z :=
  let! mx := map_result (fun ai => nextpow ai x) a in
  let! m0 := get mx 0 in
  nextprod_loop fuel a mx x (set_nth (repeat 1%Z (length a)) 0 m0) m0 m0 0.
