(* S_timmer.v: what a light curve simulated from a power spectrum should be, independent of the code. *)
From Verif Require Import Np Cplx M_fourier S_fourier.
From Coq Require Import Reals List Arith.
Import ListNotations.
Open Scope R_scope.

(* bin k of the spectrum (k = 1, 2, ..) and the random numbers drawn for it *)
Definition bin_of (l : list R) (k : nat) : R := nth (k - 1) l 0.
(* x: n values of mean m, whose transform has independent real and imaginary parts of variance S / 2 at the frequencies between 0 and the
   highest one, a real value at the highest one (as its transform at the Nyquist frequency must be) and nothing beyond the spectrum *)
Definition has_spectrum (m : R) (n : nat) (pds g1 g2 : list R) (x : list R) : Prop :=
  length x = n /\ rlsum x = INR n * m /\
  (forall k, (0 < k)%nat -> (2 * k < n)%nat -> (k < length pds)%nat -> dft x k = (bin_of g1 k * sqrt (bin_of pds k / 2), bin_of g2 k * sqrt (bin_of pds k / 2))) /\
  (forall k, (0 < k)%nat -> (2 * k <= n)%nat -> (k <= length pds)%nat -> k = length pds \/ (2 * k)%nat = n -> dft x k = (bin_of g1 k * sqrt (bin_of pds k / 2), 0)) /\
  (forall k, (2 * k <= n)%nat -> (length pds < k)%nat -> dft x k = c0).
(* y: the values of x with the mean m and the standard deviation s *)
Definition rescaled (m s : R) (x y : list R) : Prop :=
  length y = length x /\ rlsum y = INR (length x) * m /\ variance y = s * s /\
  forall k, (0 < k < length x)%nat -> dft y k = cscal (dft x k) (s / sqrt (variance x)).
