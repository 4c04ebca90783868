(* S_espec.v: grids of energies. *)
From Coq Require Import Reals List.
Import ListNotations.
Open Scope R_scope.

(* n + 1 edges from a to b at equal distances *)
Definition equally_spaced (n : nat) (a b : R) (l : list R) : Prop :=
  length l = S n /\ nth 0 l 0 = a /\ nth n l 0 = b /\ forall i, (i < n)%nat -> nth (S i) l 0 - nth i l 0 = (b - a) / INR n.
(* n + 1 edges from a to b at equal ratios *)
Definition equal_ratios (n : nat) (a b : R) (l : list R) : Prop :=
  length l = S n /\ nth 0 l 0 = a /\ nth n l 0 = b /\
  exists q, 0 < q /\ q ^ n = b / a /\ forall i, (i < n)%nat -> nth (S i) l 0 = q * nth i l 0.
Definition growing (l : list R) : Prop := forall i j, (i < j < length l)%nat -> nth i l 0 < nth j l 0.
