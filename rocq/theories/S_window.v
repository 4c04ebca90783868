(* S_window.v: what a window function should be. *)
From Coq Require Import Reals.
From Verif Require Import Np M_window.
Open Scope R_scope.

(* the values of a window of N points *)
Definition window_is (l : list (option R)) (N : nat) (v : nat -> R) : Prop :=
  length l = N /\ forall n, (n < N)%nat -> nth_error l n = Some (Some (v n)).
Definition symmetric (N : nat) (v : nat -> R) : Prop := forall n, (n < N)%nat -> v n = v (N - 1 - n)%nat.
(* the Parzen window at distance k from its centre, which reaches 0 at distance M *)
Definition parzen (M k : R) : R :=
  if Rle_dec (Rabs k) (M / 2) then 1 - 6 * (k / M) ^ 2 * (1 - Rabs k / M) else 2 * (1 - Rabs k / M) ^ 3.
(* a0 - a1 cos x + a2 cos 2x - ..., with x = 2 pi n / (N - 1) *)
Fixpoint cosine_sum_from (j : nat) (sign : R) (a : list R) (x : R) : R :=
  match a with [] => 0 | c :: a' => sign * c * cos (INR j * x) + cosine_sum_from (S j) (- sign) a' x end.
Definition cosine_sum (a : list R) (N n : nat) : R := cosine_sum_from 0 1 a (2 * PI * INR n / INR (N - 1)).
(* the published coefficients *)
Definition cosine_coefficients (w : window_type) : option (list R) :=
  match w with
  | WHamming => Some [54 / 100; 46 / 100]
  | WHanning => Some [1 / 2; 1 / 2]
  | WBlackmann => Some [42659 / 100000; 49656 / 100000; 76849 / 1000000]
  | WFlatTop => Some [1; 193 / 100; 129 / 100; 388 / 1000; 28 / 1000]
  | _ => None
  end.
