(* S_zchk.v: what the checks of the dead time model should show *)
From Verif Require Import Np Cplx.
Open Scope R_scope.

(* incident rate ri and detected rate r0 with dead time td: every detected event costs td *)
Definition rates_agree (td ri r0 : R) : Prop := 0 < ri /\ 0 < r0 /\ ri * (1 - r0 * td) = r0.
(* the curve: what is left of the k-th term A over the product of the mean counts of two bins *)
Definition curve_right (A : nat -> R) (r0 tb : R) (max_k : nat) (curve : list R) : Prop :=
  length curve = S max_k /\ forall k, (k <= max_k)%nat -> nth k curve 0 = A k - (r0 * tb) ^ 2.
(* Zhang's B, for k from 1 *)
Definition b_right (A : nat -> R) (r0 tb : R) (max_k : nat) (values : list R) : Prop :=
  length values = max_k /\ forall k, (1 <= k <= max_k)%nat -> nth (k - 1) values 0 = 4 * (A k - (r0 * tb) ^ 2) / (r0 * tb).
