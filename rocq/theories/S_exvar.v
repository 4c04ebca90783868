(* S_exvar.v: what the excess variance and the smaller helpers should compute. *)
From Coq Require Import Reals.
From Verif Require Import Np.
Open Scope R_scope.

Fixpoint add_up (l : list R) : R := match l with [] => 0 | a :: l' => a + add_up l' end.
Definition average (l : list R) : R := add_up l / INR (length l).
(* mean of the squares minus the square of the mean, minus the mean squared error (Vaughan et al. 2003, eqs. 6 and 8) *)
Definition excess (x e : list R) : R := average (map (fun v => v ^ 2) x) - average x ^ 2 - average (map (fun v => v ^ 2) e).
(* Vaughan et al. 2003, eq. 11: error of the normalized excess variance *)
Definition normalized_error (x e : list R) (fvar : R) : R :=
  let s2 := average (map (fun v => v ^ 2) e) in let n := INR (length x) in
  sqrt ((sqrt (2 / n) * (s2 / average x ^ 2)) ^ 2 + (sqrt (s2 / n) * (2 * fvar / average x)) ^ 2).
(* eq. B2: error of the fractional variability *)
Definition fractional_error (x e : list R) (fvar : R) : R :=
  let s2 := average (map (fun v => v ^ 2) e) in let n := INR (length x) in
  sqrt ((sqrt (1 / (2 * n)) * (s2 / (average x ^ 2 * fvar))) ^ 2 + (sqrt (s2 / n) * (1 / average x)) ^ 2).
(* sample variance, divided by the number of values *)
Definition error_of_mean (x : list R) : R :=
  sqrt (add_up (map (fun v => (v - average x) ^ 2) x) / (INR (length x) * (INR (length x) - 1))).
