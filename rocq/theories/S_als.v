(* S_als.v: what the baseline is specified to be: the curve minimising a weighted sum of squares plus a roughness penalty. *)
From Verif Require Import Cplx.
From Coq Require Import Reals List Arith Lia Lra.
Import ListNotations.
Open Scope R_scope.

(* product of a square matrix with a vector *)
Definition product (n : nat) (A : nat -> nat -> R) (z : list R) (i : nat) : R := rs n (fun j => A i j * nth j z 0).
Definition solution (n : nat) (A : nat -> nat -> R) (b z : list R) : Prop :=
  length z = n /\ forall i, (i < n)%nat -> product n A z i = nth i b 0.
Definition regular (n : nat) (A : nat -> nat -> R) : Prop :=
  forall z, length z = n -> (forall i, (i < n)%nat -> product n A z i = 0) -> forall i, (i < n)%nat -> nth i z 0 = 0.
(* a solver of linear equations that succeeds on every regular matrix *)
Definition exact_solver (solve : nat -> (nat -> nat -> R) -> list R -> list R) : Prop :=
  forall n A b, length b = n -> regular n A -> solution n A b (solve n A b).

(* the cost of a curve: distance from the data, weighted, and curvature *)
Definition curvature (z : list R) (k : nat) : R := nth k z 0 - 2 * nth (k + 1) z 0 + nth (k + 2) z 0.
Definition cost (lam : R) (w y z : list R) : R :=
  rs (length y) (fun i => nth i w 0 * (nth i y 0 - nth i z 0) ^ 2) + lam * rs (length y - 2) (fun k => curvature z k ^ 2).
Definition best_curve (lam : R) (w y z : list R) : Prop :=
  length z = length y /\ forall v, length v = length y -> v <> z -> cost lam w y z < cost lam w y v.

(* the weight of a point: p above the curve, 1 - p below it, nothing on it *)
Definition asymmetric (p : R) (y z w : list R) : Prop :=
  length w = length y /\ forall i, (i < length y)%nat ->
    (nth i z 0 < nth i y 0 -> nth i w 0 = p) /\ (nth i y 0 < nth i z 0 -> nth i w 0 = 1 - p) /\ (nth i y 0 = nth i z 0 -> nth i w 0 = 0).
Definition two_off (y z : list R) : Prop :=
  exists i j, (i < j)%nat /\ (j < length y)%nat /\ nth i y 0 <> nth i z 0 /\ nth j y 0 <> nth j z 0.
Definition straight (a b : R) (n : nat) : list R := map (fun i => a + b * INR i) (seq 0 n).
(* the constant closest to a list of numbers *)
Definition constant_fit (fit : list R -> R) : Prop :=
  forall l c, l <> [] -> rlsum (map (fun v => (v - fit l) ^ 2) l) <= rlsum (map (fun v => (v - c) ^ 2) l).
(* a curve stretched by c and with a straight line added *)
Definition stretched (c a b : R) (l : list R) : list R := map (fun p => c * snd p + (a + b * INR (fst p))) (combine (seq 0 (length l)) l).
(* no negative weights and two positive ones *)
Definition supported (n : nat) (w : list R) : Prop :=
  (forall k, (k < n)%nat -> 0 <= nth k w 0) /\ exists i j, (i < j)%nat /\ (j < n)%nat /\ 0 < nth i w 0 /\ 0 < nth j w 0.
(* two selections of points without a common one *)
Definition apart (m m' : list bool) : Prop := forall i, nth i m false = true -> nth i m' false = false.
