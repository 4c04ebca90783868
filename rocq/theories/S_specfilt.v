(* S_specfilt.v: what the filters for spectra should do. *)
From Coq Require Import QArith Qabs List.
Open Scope Q_scope.

(* x lies in the full width at half maximum around x0 *)
Definition inside (x0 fwhm x : Q) : Prop := x0 - fwhm / 2 <= x /\ x <= x0 + fwhm / 2.
(* components that are not negative *)
Definition no_negative (model : list (Q -> Q)) (x : Q) : Prop := Forall (fun f => 0 <= f x) model.
(* weights w minimise the squared error E[(w (s + n) - s)^2] of a signal of power s in uncorrelated noise of power n *)
Definition mean_error (s n w : Q) : Q := (w - 1) * (w - 1) * s + w * w * n.
