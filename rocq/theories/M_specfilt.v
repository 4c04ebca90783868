(* M_specfilt.v: model of the filters for spectra of stingray/filters.py.  Numbers are exact. *)
From Verif Require Import Np Lib.
From Coq Require Import QArith Qabs List Bool.
Import ListNotations.
Open Scope Q_scope.

(* stingray/filters.py:44-49 Window1D.__call__; x0 and fwhm are those of the first component of the model (39-42) *)
Fixpoint window_loop (x0 fwhm : Q) (x y : list Q) : list Q :=
  match x, y with a :: x', b :: y' => (if qle (Qabs (a - x0)) (fwhm / 2) then 1 else b) :: window_loop x0 fwhm x' y' | _, _ => [] end.
Definition window1d (x0 fwhm : Q) (x : list Q) : list Q := window_loop x0 fwhm x (repeat 0 (length x)).

(* stingray/filters.py:71-78 Optimal1D: the first component over the sum of all components (an astropy model made with +).
   Division by zero gives no number.  A model with no components has no model[0]: IndexError. *)
Definition total (model : list (Q -> Q)) (x : Q) : Q := fold_right (fun f s => f x + s) 0 model.
Definition ratio (a b : Q) : option Q := if qeq b 0 then None else Some (a / b).
Definition optimal1d (model : list (Q -> Q)) (x : list Q) : result (list (option Q)) :=
  match model with [] => Err IndexError | f :: _ => Ok (map (fun a => ratio (f a) (total model a)) x) end.
