(* S_bexvar.v: quantiles of counts and what the grid and the weights of the Bayesian excess variance should be. *)
From Verif Require Import Np Cplx S_chi2.
From Coq Require Import Reals List.
Import ListNotations.
Open Scope R_scope.
(* g (n+1) p is the quantile p of the gamma distribution of shape n+1: the rate for which more than n counts have probability p *)
Definition quantile_function (g : R -> R -> R) : Prop :=
  forall n p, 0 < p < 1 -> 0 < g (INR n + 1) p /\ erlang (S n) (g (INR n + 1) p) = 1 - p.
(* the lowest rate of the source that the counts of one bin allow, and the highest *)
Definition lowest_rate (g : R -> R -> R) (src bkg area conv : R) : R := g (src + 1) (1 / 1000) / conv - g (bkg + 1) (999 / 1000) / (conv * area).
Definition highest_rate (g : R -> R -> R) (src conv : R) : R := g (src + 1) (999 / 1000) / conv.
Definition least (l : list R) (m : R) : Prop := In m l /\ forall x, In x l -> m <= x.
Definition greatest (l : list R) (m : R) : Prop := In m l /\ forall x, In x l -> x <= m.
(* n equally spaced values from a to b *)
Definition even_grid (a b : R) (n : nat) (l : list R) : Prop :=
  length l = n /\ forall i, (i < n)%nat -> nth i l 0 = a + (b - a) * (INR i / INR (n - 1)).
(* one bin: length, counts of source and background, ratio of areas, exposed fraction *)
Record row := mkRow { r_len : R; r_src : R; r_bkg : R; r_ratio : R; r_frac : R }.
