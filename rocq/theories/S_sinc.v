(* S_sinc.v: partial derivatives and a sinc squared curve, on their own. *)
From Coq Require Import Reals.
Open Scope R_scope.
(* f is amplitude * (sin z / z)^2 with z = (x - mean) / width, 1 at z = 0 *)
Definition sinc2 (z v : R) : Prop := (z = 0 /\ v = 1) \/ (z <> 0 /\ v * (z * z) = sin z * sin z).
(* d is the derivative of f at x (f defined near x) *)
Definition slope_at (f : R -> option R) (x d : R) : Prop :=
  exists g, (exists e, 0 < e /\ forall y, Rabs (y - x) < e -> f y = Some (g y)) /\ derivable_pt_lim g x d.
