(* S_calib.v: what a fit and a likelihood ratio are. *)
From Coq Require Import String.
From Verif Require Import Np Cplx.
From Coq Require Import Reals List.
Import ListNotations.
Open Scope R_scope.

(* the minimizer gives the only minimum of f *)
Definition fitted (minimize : string -> (list R -> R) -> list R -> result (list R * R)) (method : string) (f : list R -> R) (t : list R) : Prop :=
  exists p, minimize method f t = Ok (p, f p) /\ forall q, q <> p -> f p < f q.
(* a minimizer that returns minima only *)
Definition returns_minimum (minimize : string -> (list R -> R) -> list R -> result (list R * R)) : Prop :=
  forall method f t p v, minimize method f t = Ok (p, v) -> v = f p /\ forall q, f p <= f q.
Definition largest (f : list R -> R) (v : R) : Prop := (exists p, f p = v) /\ forall q, f q <= v.

(* matrices *)
Definition identity (i j : nat) : R := if Nat.eqb i j then 1 else 0.
Definition exact_inverse (inv : nat -> (nat -> nat -> R) -> nat -> nat -> R) : Prop :=
  forall n A, (exists B, forall i j, (i < n)%nat -> (j < n)%nat -> rs n (fun k => A i k * B k j) = identity i j) ->
    forall i j, (i < n)%nat -> (j < n)%nat -> rs n (fun k => A i k * inv n A k j) = identity i j.
Definition negative_definite (n : nat) (A : nat -> nat -> R) : Prop :=
  forall x, (exists i, (i < n)%nat /\ x i <> 0) -> rs n (fun i => x i * rs n (fun j => A i j * x j)) < 0.
Definition invertible (n : nat) (A : nat -> nat -> R) : Prop :=
  exists B, forall i j, (i < n)%nat -> (j < n)%nat -> rs n (fun k => A i k * B k j) = identity i j.
