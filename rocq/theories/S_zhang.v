(* S_zhang.v: what the dead time model should compute *)
From Verif Require Import Np Cplx.
Open Scope R_scope.

(* probability that a Poisson number of mean x is m *)
Definition poisson (x : R) (m : nat) : R := exp (- x) * x ^ m / INR (fact m).
(* mean of (n - M), where positive, for a Poisson number M of mean x *)
Definition poisson_deficit (x : R) (n : nat) : R := rs n (fun m => poisson x m * (INR n - INR m)).
(* mean time, in units of the bin tb, that is left of k bins after the n-th of n waits, each a dead time td and an exponential time of mean tau *)
Definition time_left (k n : nat) (td tb tau : R) : R :=
  let x := (INR k * tb - INR n * td) / tau in
  if Rlt_dec x 0 then 0 else tau / tb * (x - INR n + poisson_deficit x n).
(* mean Leahy power at frequency j of N bins with mean counts mu, whose products have the means A |u - v| *)
Definition distance (u v : nat) : nat := ((u - v) + (v - u))%nat.
Definition leahy_mean (N : nat) (mu : R) (A : nat -> R) (j : nat) : R :=
  2 / (INR N * mu) * rs N (fun u => rs N (fun v => A (distance u v) * cos (2 * PI * INR j * (INR u - INR v) / INR N))).
