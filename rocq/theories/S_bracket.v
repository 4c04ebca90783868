(* The search of an interval: the first trial value, on either side, at which the sign of the function changes. *)
From Coq Require Import Reals.
Open Scope R_scope.

Definition same_sign (a b : R) : Prop := (0 < a <-> 0 < b) /\ (a < 0 <-> b < 0).

(* r lies k steps from x; no earlier trial value has another sign; the upper side is preferred *)
Definition first_change (f : R -> R) (x step r : R) : Prop :=
  exists k : nat,
    (forall j, (j < k)%nat -> same_sign (f (x + INR j * step)) (f x) /\ same_sign (f (x - INR j * step)) (f x)) /\
    ~ same_sign (f r) (f x) /\
    (r = x + INR k * step \/ (r = x - INR k * step /\ same_sign (f (x + INR k * step)) (f x))).
