(* S_models.v: what the shapes and the channels are compared with. *)
From Coq Require Import String.
From Coq Require Import Reals List.
Open Scope R_scope.
(* the generalized Lorentzian of half width h and order n *)
Definition lorentz (v h n u : R) : R := v * Rpower h n / (Rpower u n + Rpower h n).
(* f stays within e of c on the side of zero *)
Definition tends_at_zero (f : R -> R) (c : R) : Prop := forall e, 0 < e -> exists d, 0 < d /\ forall x, 0 < x < d -> Rabs (f x - c) < e.
Definition tends_at_infinity (f : R -> R) (c : R) : Prop := forall e, 0 < e -> exists d, 0 < d /\ forall x, d < x -> Rabs (f x - c) < e.
(* the pair n, l is kept by the channels *)
Definition keeps {L} (channels : list (string * L)) (n : string) (l : L) : Prop := In (n, l) channels.
