(* S_gp.v: covariance functions and flares. *)
From Verif Require Import Np Cplx.
From Coq Require Import Reals List Arith String.
Import ListNotations.
Open Scope R_scope.
(* times in order *)
Definition ordered (n : nat) (t : nat -> R) : Prop := forall i j, (i <= j < n)%nat -> t i <= t j.
(* k is a covariance: all quadratic forms with it are nonnegative *)
Definition covariance (k : R -> R) (n : nat) (t : nat -> R) : Prop :=
  forall x : nat -> R, 0 <= rs n (fun i => rs n (fun j => x i * x j * k (t i - t j))).
(* a flare of height A with its maximum at t0 *)
Definition peaks_at (f : R -> R) (t0 A : R) : Prop := f t0 = A /\ forall t, f t <= f t0.
(* the name without a leading "log_" *)
Definition plain (name x : string) : Prop := name = ("log_" ++ x)%string \/ (name = x /\ forall y, name <> ("log_" ++ y)%string).
(* the documented kernels and means *)
Open Scope string_scope.
Definition kernels : list string := ["RN"; "QPO_plus_RN"; "QPO"].
Definition mean_names : list string := ["gaussian"; "exponential"; "constant"; "skew_gaussian"; "skew_exponential"; "fred"].
