(* S_bispec.v: what the third-order cumulant and the bispectrum should be *)
From Verif Require Import Np Cplx S_corr.
Open Scope R_scope.

(* sum over the data of the products of the deviations at t, t + a and t + b *)
Definition third_sum (x : list R) (a b : Z) : R :=
  rs (length x) (fun t => deviation x (Z.of_nat t) * deviation x (Z.of_nat t + a) * deviation x (Z.of_nat t + b)).
(* how many positions of n have both partners in the data *)
Definition inside (n : nat) (t : Z) : bool := ((0 <=? t) && (t <? Z.of_nat n))%Z%bool.
Definition partners (n : nat) (a b : Z) : nat :=
  length (filter (fun t => inside n (Z.of_nat t + a) && inside n (Z.of_nat t + b))%bool (seq 0 n)).
(* the element at row i and column j is f i j, and there are n rows of n elements *)
Definition table_is {A} (m : list (list A)) (n : nat) (f : nat -> nat -> A) : Prop :=
  length m = n /\ forall i, (i < n)%nat -> exists row, nth_error m i = Some row /\ length row = n /\
  forall j, (j < n)%nat -> nth_error row j = Some (f i j).
(* two-dimensional transform, at the frequencies k1 and k2 in units of 1 / ((2L+1) dt), of a function of the lags -L .. L *)
Definition transform2 (L : nat) (c : Z -> Z -> R) (k1 k2 : Z) : cx :=
  let N := (2 * L + 1)%nat in
  let lag i := (Z.of_nat i - Z.of_nat L)%Z in
  cs N (fun i => cs N (fun j => cscal (cis N (- (k1 * lag i + k2 * lag j))) (c (lag i) (lag j)))).
(* the largest lag: half of the number of points unless given; the sign does not matter *)
Definition lag_limit (n : nat) (maxlag : option Z) : nat := match maxlag with None => (n / 2)%nat | Some l => Z.abs_nat l end.
(* the sums are divided by the number of points, or by the number of terms (at least 1) *)
Definition divisor (biased : bool) (n : nat) (a b : Z) : R := INR (if biased then n else Nat.max 1 (partners n a b)).

