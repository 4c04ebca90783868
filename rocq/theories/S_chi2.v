(* S_chi2.v: tail of the chi squared distribution with an even number of degrees of freedom, on its own. *)
From Verif Require Import Np Cplx.
From Coq Require Import Reals.
Open Scope R_scope.
(* probability that chi squared with 2 n degrees of freedom exceeds 2 z: exp(-z) sum_{j<n} z^j / j! *)
Definition erlang (n : nat) (z : R) : R := exp (- z) * rs n (fun j => z ^ j / INR (fact j)).
