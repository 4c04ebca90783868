(* S_mtaper.v: weighted means, ensembles of white noise. *)
From Verif Require Import Np Cplx.
From Coq Require Import Reals List Arith.
Import ListNotations.
Open Scope R_scope.
(* weighted mean of the values f 0 .. f (n-1) with weights w *)
Definition weighted_mean (n : nat) (w f : nat -> R) : R := rs n (fun k => w k * f k) / rs n w.
(* sum over an ensemble of data *)
Definition over (ens : list (nat -> R)) (f : (nat -> R) -> R) : R := rlsum (map f ens).
(* a finite ensemble of data of n bins: the deviations from the mean value [m] of different bins are not correlated and all have
   variance s2 *)
Definition white_noise (ens : list (nat -> R)) (n : nat) (m s2 : R) : Prop :=
  (forall i, (i < n)%nat -> over ens (fun x => x i - m) = 0) /\
  (forall i j, (i < n)%nat -> (j < n)%nat -> over ens (fun x => (x i - m) * (x j - m)) = if Nat.eqb i j then INR (length ens) * s2 else 0).
Definition series_of (n : nat) (x : nat -> R) : list R := map x (seq 0 n).
Definition mean_of (x : list R) : R := rlsum x / INR (length x).
(* data without its mean, times a taper *)
Definition tapered (counts taper : list R) : list R := map (fun p => fst p * snd p) (combine (map (fun c => c - mean_of counts) counts) taper).
(* what a spectrum at one frequency should be: positive, between the extremes of the single tapers *)
Definition sound (c : list cx) (p : R) : Prop :=
  0 < p /\ forall lo hi, (forall k, (k < length c)%nat -> lo <= 2 * cnorm2 (nth k c c0) <= hi) -> lo <= p <= hi.
Definition seen (c : list cx) (m : nat) : Prop := exists k, (k < m)%nat /\ 0 < cnorm2 (nth k c c0).
