(* S_fftfit.v: what fftfit should compute: the template, shifted and scaled, that fits a pulse profile best in the Fourier
   domain (Taylor 1992). *)
From Verif Require Import Np Cplx S_fourier.
From Coq Require Import Reals.
Open Scope R_scope.

(* y is x up to whole turns, in (-1/2, 1/2] *)
Definition wrapped (x y : R) : Prop := - (1 / 2) < y <= 1 / 2 /\ exists k, y = x + IZR k.

(* harmonic k of the product of the profile and of the template shifted by tau turns *)
Definition harmonic (p t : list R) (k : nat) (tau : R) : cx :=
  cmul (cmul (dft p k) (cconj (dft t k))) (cos (2 * PI * INR k * tau), sin (2 * PI * INR k * tau)).
Definition hsum (K : nat) (f : nat -> R) : R := rlsum (map f (seq 1 K)).
(* derivative (up to a factor) of the correlation of K harmonics with respect to the shift *)
Definition slope (p t : list R) (K : nat) (tau : R) : R := hsum K (fun k => INR k * im (harmonic p t k tau)).
(* correlation of the first K harmonics, sum of squares of the template, curvature *)
Definition correlation (p t : list R) (K : nat) (tau : R) : R := hsum K (fun k => re (harmonic p t k tau)).
Definition tpower (t : list R) (K : nat) : R := hsum K (fun k => cnorm2 (dft t k)).
Definition curvature (p t : list R) (K : nat) (tau : R) : R := hsum K (fun k => INR k * INR k * re (harmonic p t k tau)).
(* strength of bin k (none at zero frequency); number of bins at least as strong as the mean *)
Definition strength (p t : list R) (k : nat) : R := if Nat.eqb k 0 then 0 else cabs (dft p k) * cabs (dft t k).
Definition strong (p t : list R) : nat :=
  length (filter (fun k => if Rle_dec (rs (length p) (strength p t) / INR (length p)) (strength p t k) then true else false) (seq 0 (length p))).
(* sum of squared deviations from the mean of all bins but the first *)
Definition spread (p : list R) : R :=
  rlsum (map (fun j => (val p j - avg (fun y => y) p) * (val p j - avg (fun y => y) p)) (seq 1 (length p - 1))).

(* the profile is the template delayed by m bins, scaled by a, plus a constant *)
Definition copy_of (m : nat) (a c : R) (t p : list R) : Prop :=
  exists y, delayed m t y /\ p = map (fun v => a * v + c) y.

(* library: a root finder returns a root in the interval *)
Definition finds_roots (brentq : (R -> R) -> R -> R -> result R) : Prop :=
  forall f a b x, brentq f a b = Ok x -> f x = 0 /\ a <= x <= b.
