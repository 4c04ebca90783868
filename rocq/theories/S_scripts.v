(* S_scripts.v: what the fits with one call are compared with. *)
From Coq Require Import String DecimalString Decimal.
From Verif Require Import Np.
From Coq Require Import Reals List.
Import ListNotations.
Open Scope R_scope.
(* amplitude, centre and full width at half maximum of each Lorentzian, and the noise *)
Definition lorentz_sum (l : list (R * R * R)) (noise x : R) : R :=
  fold_right (fun t s => let '(a, x0, w) := t in a * (w / 2) ^ 2 / ((x - x0) ^ 2 + (w / 2) ^ 2) + s) noise l.
Definition listed (l : list (R * R * R)) : list R := flat_map (fun t => let '(a, x0, w) := t in [a; x0; w]) l.
(* the documented names of N Lorentzians and noise *)
Definition numbered (n : string) (i : nat) : string := (n ++ "_" ++ NilEmpty.string_of_uint (Nat.to_uint i))%string.
Definition documented (N : nat) : list string :=
  flat_map (fun i => [numbered "amplitude" i; numbered "x_0" i; numbered "fwhm" i])%string (seq 0 N) ++ [numbered "amplitude" N].
(* a minimizer fails when the function cannot be computed for any vector of the length of the start *)
Definition evaluates (minimize : string -> (list R -> result R) -> list R -> result (list R)) : Prop :=
  forall method f t e, (forall p, List.length p = List.length t -> f p = Err e) -> minimize method f t = Err e.
(* a minimizer looks at the values of the function alone *)
Definition extensional (minimize : string -> (list R -> result R) -> list R -> result (list R)) : Prop :=
  forall method f g t, (forall p, f p = g p) -> minimize method f t = minimize method g t.
