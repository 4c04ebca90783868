(* S_posterior.v: probability densities, stated without reference to the code *)
From Coq Require Import Reals List String.
Import ListNotations.
Open Scope R_scope.

Definition normal_density (mu sigma y : R) : R := exp (- ((y - mu) ^ 2 / (2 * sigma ^ 2))) / (sigma * sqrt (2 * PI)).
Definition poisson_probability (mu : R) (k : nat) : R := exp (- mu) * mu ^ k / INR (fact k).
(* power of a noise process whose mean power is s *)
Definition exponential_density (s y : R) : R := exp (- (y / s)) / s.
(* mean of m such powers *)
Definition gamma_density (m : nat) (s y : R) : R := (INR m / s) ^ m * y ^ (m - 1) * exp (- (INR m * y / s)) / INR (fact (m - 1)).
(* the part of it that does not depend on s or y *)
Definition gamma_constant (m : nat) : R := INR m ^ m / INR (fact (m - 1)).
Definition laplace_density_of_scale (mu b y : R) : R := exp (- (Rabs (y - mu) / b)) / (2 * b).
(* the standard deviation of a Laplace distribution of scale b is sqrt 2 * b *)
Definition laplace_density (mu sigma y : R) : R := exp (- (sqrt 2 * Rabs (y - mu) / sigma)) / (sqrt 2 * sigma).
Definition product (l : list R) : R := fold_right Rmult 1 l.
Definition map2 {A B C : Type} (f : A -> B -> C) (l : list A) (l' : list B) : list C := map (fun p => f (fst p) (snd p)) (combine l l').
Definition map3 {A B C D : Type} (f : A -> B -> C -> D) (l : list A) (l' : list B) (l'' : list C) : list D :=
  map2 (fun p c => f (fst p) (snd p) c) (combine l l') l''.
(* The parameters of a model, each fixed (true) or not, filled with values: the values go, in order, to those that are not fixed *)
Inductive filled : list (bool * R) -> list R -> list R -> Prop :=
| filled_nil : filled [] [] []
| filled_fixed v ps vals theta : filled ps vals theta -> filled ((true, v) :: ps) vals (v :: theta)
| filled_free u v ps vals theta : filled ps vals theta -> filled ((false, u) :: ps) (v :: vals) (v :: theta).
