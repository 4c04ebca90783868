(* S_ols.v: what the convolution and the search of FFT lengths should compute. *)
From Verif Require Import Np Cplx.
Open Scope R_scope.

(* a signal continued by zeros, or by reflection about its first and last samples, to all integers *)
Definition zero_ext (x : list R) (i : Z) : R :=
  if ((0 <=? i) && (i <? Z.of_nat (length x)))%Z%bool then nth (Z.to_nat i) x 0 else 0.
(* e continues x by reflection: it agrees with x inside, is even about 0 and even about length x - 1 *)
Definition reflected (x : list R) (e : Z -> R) : Prop :=
  (forall i, (i < length x)%nat -> e (Z.of_nat i) = nth i x 0) /\
  (forall i, e (- i)%Z = e i) /\
  (forall i, e (2 * (Z.of_nat (length x) - 1) - i)%Z = e i).

(* sample m of the linear convolution of e and h, and of its central part (mode "same") *)
Definition convolved (e : Z -> R) (h : list R) (m : Z) : R :=
  rs (length h) (fun i => nth i h 0 * e (m - Z.of_nat i)%Z).
Definition same_part (e : Z -> R) (h : list R) (n : nat) : list R :=
  map (fun m => convolved e h (Z.of_nat m + Z.of_nat ((length h - 1) / 2))) (seq 0 n).

(* conversion of a float to an integer array: truncation *)
Definition trunc (x : R) : R := if Rle_dec 0 x then IZR (up x - 1) else - IZR (up (- x) - 1).
