(* S_signif.v: what significances of powers and cospectra mean, independent of the code. *)
From Verif Require Import Np S_stats.
From Coq Require Import Reals.
Open Scope R_scope.

(* The regularised upper incomplete gamma function at a positive integer: probability that a Poisson variable of mean x is below a. *)
Definition upper_gamma (a : nat) (x : R) : R := exp (- x) * poisson_sum a x.
Definition is_gammaincc (g : nat -> R -> R) : Prop := forall a x, (0 < a)%nat -> 0 <= x -> g a x = upper_gamma a x.
(* Survival function of the Laplace law of density exp(-|u|)/2. *)
Definition laplace_tail (x : R) : R := if Rle_dec 0 x then exp (- x) / 2 else 1 - exp x / 2.
(* A continuous law symmetric around 0. *)
Definition symmetric_sf (sf : R -> R) : Prop :=
  (forall x, 0 < sf x < 1) /\ (forall x y, x < y -> sf y < sf x) /\ (forall x, sf (- x) = 1 - sf x).
(* If F is the survival function of a symmetric variable X (on the right half line), G is the one of X + L with L an independent Laplace
   variable: the density exp(-|u|)/2 is the Green function of 1 - d^2/du^2, so the survival function after the convolution is
   the bounded solution of G - G'' = F with value 1/2 at 0. *)
Definition add_laplace (F G : R -> R) : Prop :=
  (exists G', forall s, 0 < s -> derivable_pt_lim G s (G' s) /\ derivable_pt_lim G' s (G s - F s)) /\
  G 0 = 1 / 2 /\ continuity_pt G 0 /\ forall s, 0 <= s -> 0 <= G s <= 1.
(* Positions of a report are increasing. *)
Fixpoint ascending (l : list nat) : Prop :=
  match l with a :: ((b :: _) as l') => (a < b)%nat /\ ascending l' | _ => True end.
