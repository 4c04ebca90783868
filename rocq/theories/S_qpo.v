(* S_qpo.v: what the phases and distances of spectroscopy.py should be. *)
From Verif Require Import Np Cplx S_fourier.
From Coq Require Import Reals List ZArith.
Import ListNotations.
Open Scope R_scope.
(* two phases that agree modulo p *)
Definition congruent (p a b : R) : Prop := exists k : Z, a = b + p * IZR k.
(* the phase difference between the harmonics: modulo pi, in [0, pi) *)
Definition phase_difference (phi1 phi2 psi : R) : Prop := 0 <= psi < PI /\ congruent PI psi (phi2 / 2 - phi1).
(* counts per bin of a light curve with a mean rate and two sine waves, at the bins k1 and k2 of the transform *)
Definition two_tones (n : nat) (dt mean a1 a2 phi1 phi2 : R) (k1 k2 : nat) : list R :=
  map (fun j => dt * (mean + a1 * cos (2 * PI * INR (k1 * j) / INR n + phi1) + a2 * cos (2 * PI * INR (k2 * j) / INR n + phi2))) (seq 0 n).
(* distance between two phase differences, which are defined modulo pi *)
Definition cyclic_distance (a b d : R) : Prop := 0 <= d <= PI / 2 /\ (congruent PI (a - b) d \/ congruent PI (b - a) d).
(* sum of the values of f over the list *)
Fixpoint total {A} (f : A -> R) (l : list A) : R := match l with [] => 0 | x :: l' => f x + total f l' end.
(* correlation at lag m of the real powers w, normalized with the number of bins and the rms *)
Definition folded (w : list R) (rms : R) (n_bins m : nat) : R :=
  2 / (INR n_bins * rms) * (rs (length w) (fun k => val w k * cos (2 * PI * INR (k * m) / INR (length w))) / INR (length w)).
(* moduli of the powers, weighted *)
Definition weighted (weights : list R) (p : list cx) : list R := map (fun q => fst q * cabs (snd q)) (combine weights p).
(* the bin k of the transform of n bins of width d is the one nearest to the frequency x *)
Definition close_bin (n : nat) (d x : R) (k : nat) : Prop := Rabs (x - INR k / (INR n * d)) < 1 / (2 * (INR n * d)).
(* count rates *)
Definition rates (dt : R) (counts : list R) : list R := map (fun c => c / dt) counts.
(* n equally spaced phases *)
Definition phase_grid (n j : nat) : R := 2 * PI * INR j / INR n.
