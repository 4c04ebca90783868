(* S_parest.v: what fits, p-values and outliers should be, stated without reference to the code *)
From Coq Require Import Reals List Permutation Sorted.
Import ListNotations.
Open Scope R_scope.

(* value of an optimizer that is not one of the markers of a failure: finite, not 0, 100 or 200, not around -1e16 or -2e16 *)
Definition acceptable (v : option R) : Prop :=
  match v with
  | None => False
  | Some r => r <> 0 /\ r <> 100 /\ r <> 200 /\ Rabs (r + 10 ^ 16) > / 10 ^ 8 + 10 ^ 11 /\ Rabs (r + 2 * 10 ^ 16) > / 10 ^ 8 + 2 * 10 ^ 11
  end.
(* k of the n simulations are above the observed value *)
Inductive above (obs : R) : list R -> nat -> Prop :=
| above_nil : above obs [] 0
| above_yes s l k : obs < s -> above obs l k -> above obs (s :: l) (S k)
| above_no s l k : s <= obs -> above obs l k -> above obs (s :: l) k.
(* the n largest values of l in increasing order *)
Definition largest (l top : list R) (n : nat) : Prop :=
  exists rest, Permutation l (rest ++ top) /\ length top = n /\ StronglySorted Rle top /\ forall r t, In r rest -> In t top -> r <= t.
Definition average (l : list R) : R := fold_right Rplus 0 l / INR (length l).
Definition sum_squares (c : R) (l : list R) : R := fold_right Rplus 0 (map (fun v => (v - c) ^ 2) l).
