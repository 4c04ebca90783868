(* S_stats.v: vocabulary of the properties about stats.py *)
From Verif Require Import Np.
From Coq Require Import Reals Lra.
Open Scope R_scope.

(* probability of at least one success in n independent trials *)
Definition at_least_one (p : R) (n : nat) : R := 1 - (1 - p) ^ n.

(* survival function of chi^2 with 2 n degrees of freedom: exp(-x/2) sum_{m<n} (x/2)^m / m! *)
Fixpoint poisson_sum (n : nat) (x : R) : R :=
  match n with O => 0 | S m => poisson_sum m x + x ^ m / INR (fact m) end.
Definition chi2_even_sf (x : R) (n : nat) : R := exp (- (x / 2)) * poisson_sum n (x / 2).

(* what is used of scipy.stats.chi2: a strictly decreasing survival function on [0, inf) and its
   inverse *)
Definition survival (sf isf : R -> nat -> R) : Prop :=
  (forall x d, (0 < d)%nat -> 0 <= x -> 0 < sf x d <= 1) /\
  (forall x y d, (0 < d)%nat -> 0 <= x -> x < y -> sf y d < sf x d) /\
  (forall e d, (0 < d)%nat -> 0 < e < 1 -> 0 <= isf e d /\ sf (isf e d) d = e).
