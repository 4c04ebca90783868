(* M_scripts.v: model of stingray/modeling/scripts.py, fits of power spectra with one call.  Models, likelihoods and posteriors are
   those of M_posterior. *)
From Coq Require Import String DecimalString Decimal.
From Verif Require Import Np M_utils M_exvar M_posterior.
From Coq Require Import Reals List Bool Arith ZArith.
Import ListNotations.
Open Scope R_scope.

(* The starting guesses: not given, a list or an array, another iterable (for example a tuple) *)
Inductive start := NoStart | Sequence (l : list R) | OtherIterable (l : list R).
(* scripts.py:118-119, 185-186 *)
Definition start_of (md : astromodel) (s : start) : list R :=
  match s with Sequence l => l | NoStart | OtherIterable _ => map p_value (m_params md) end.

Section Fit.
(* scipy.optimize.minimize with the retries of fit (library, see M_parest): method, function and start to the parameters found *)
Variable minimize : string -> (list R -> result R) -> list R -> result (list R).
(* parameterestimation.py:403-406 and 445-504: the number of parameters is checked, then the function is minimized *)
Definition checked_fit (npar : nat) (method : string) (f : list R -> result R) (t0 : list R) : result (list R) :=
  if Nat.eqb (List.length t0) npar then minimize method f t0 else Err ValueError.
(* scripts.py:11-129 fit_powerspectrum, the parameters found.  An empty dictionary of priors is None.  The number of parameters is
   that of posterior.py:643-646 with priors, of 442-445 without.  A LogLikelihood that is called is its evaluate (posterior.py:212-213),
   so that max_post changes nothing for it (parameterestimation.py:446-448). *)
Definition fit_powerspectrum (md : astromodel) (m : multiplicity) (x y : list R) (s : start) (max_post : bool) (priors : option prior_dict) (method : string) : result (list R) :=
  let t0 := start_of md s in
  match priors with
  | Some _ => checked_fit (npar_not_fixed md) method (fun p => if max_post then psd_posterior m md x y priors p true else psd_evaluate m md x y p true) t0
  | None => checked_fit (npar_free md) method (fun p => psd_evaluate m md x y p true) t0
  end.
(* scripts.py:132-195 fit_crossspectrum: y are the moduli of the powers, line 188 and 190 *)
Definition fit_crossspectrum (md : astromodel) (x y yerr : list R) (s : start) (max_post : bool) (priors : option prior_dict) (method : string) : result (list R) :=
  let t0 := start_of md s in
  match priors with
  | Some _ => checked_fit (npar_not_fixed md) method (fun p => if max_post then gaussian_posterior md x y yerr priors p true else gaussian_evaluate md x y yerr p true) t0
  | None => checked_fit (npar_not_fixed md) method (fun p => gaussian_evaluate md x y yerr p true) t0
  end.

(* Components of astropy's models: Lorentz1D(amplitude=1, x_0=0, fwhm=1) and Const1D(amplitude=1); a sum numbers its parameters,
   a single component does not *)
Inductive shape := Lorentz1D | Const1D.
Definition shape_params (s : shape) : list (string * R) :=
  match s with Lorentz1D => [("amplitude", 1); ("x_0", 0); ("fwhm", 1)]%string | Const1D => [("amplitude", 1)]%string end.
Definition suffixed (n : string) (i : nat) : string := (n ++ "_" ++ NilEmpty.string_of_uint (Nat.to_uint i))%string.
Definition shape_value (s : shape) (p : list R) (x : R) : option R :=
  match s, p with
  | Lorentz1D, [a; x0; w] => fdiv (a * (w / 2) ^ 2) ((x - x0) ^ 2 + (w / 2) ^ 2)
  | Const1D, [a] => Some a
  | _, _ => None
  end.
Fixpoint sum_value (l : list shape) (p : list R) (x : R) : option R :=
  match l with
  | [] => Some 0
  | s :: l' =>
      let k := List.length (shape_params s) in
      flet a := shape_value s (firstn k p) x in flet b := sum_value l' (skipn k p) x in Some (a + b)
  end.
Definition free_param (n : string) (v : R) : param := mkParam n v false None.
Definition sum_params (l : list shape) : list param :=
  match l with
  | [s] => map (fun q => free_param (fst q) (snd q)) (shape_params s)
  | _ => flat_map (fun si => map (fun q => free_param (suffixed (fst q) (snd si)) (snd q)) (shape_params (fst si))) (combine l (seq 0 (List.length l)))
  end.
Definition sum_model (l : list shape) : astromodel := mkModel (sum_params l) (sum_value l).
(* scripts.py:307-314 the model *)
Definition lorentzians (nlor : Z) (fit_whitenoise : bool) : list shape :=
  (Lorentz1D :: (if (1 <? nlor)%Z then repeat Lorentz1D (Z.to_nat (nlor - 1)) else [])) ++ (if fit_whitenoise then [Const1D] else []).
(* scripts.py:198-318 fit_lorentzians *)
Definition fit_lorentzians (m : multiplicity) (x y : list R) (nlor : Z) (s : start) (fit_whitenoise max_post : bool) (priors : option prior_dict) (method : string) : result (list R) :=
  fit_powerspectrum (sum_model (lorentzians nlor fit_whitenoise)) m x y s max_post priors method.
End Fit.
