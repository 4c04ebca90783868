(* M_posterior.v: model of stingray/modeling/posterior.py.  Floats are exact reals; None stands for nan, inf and -inf, none of
   which can come back to a finite value in the formulas below. *)
From Coq Require Import String.
From Verif Require Import Np M_utils Cplx.
From Coq Require Import Reals List Bool Arith.
Import ListNotations.
Open Scope R_scope.

(* posterior.py:43 *)
Definition logmin : R := - 10000000000000000.
(* stingray/utils.py:2359-2391 assign_if_not_finite *)
Definition assign_if_not_finite (value : option R) (default : R) : R := match value with Some v => v | None => default end.
Definition opt2 (f : R -> R -> R) (a b : option R) : option R :=
  match a, b with Some x, Some y => Some (f x y) | _, _ => None end.
Definition oadd := opt2 Rplus.
Definition osub := opt2 Rminus.
Definition omul := opt2 Rmult.
Definition odiv (a b : option R) : option R :=
  match a, b with Some x, Some y => if Req_EM_T y 0 then None else Some (x / y) | _, _ => None end.
Definition oneg : option R -> option R := option_map Ropp.
(* np.log: -inf at 0, nan below *)
Definition olog (a : option R) : option R := match a with Some x => if Rlt_dec 0 x then Some (ln x) else None | None => None end.
(* np.sum *)
Definition osum (l : list (option R)) : option R := fold_right oadd (Some 0) l.

(* An astropy model: its parameters in the order of param_names (bounds are left out), and its value at x *)
Record param := mkParam { p_name : string; p_value : R; p_fixed : bool; p_tied : option (list R -> R) }.
Definition is_tied (p : param) : bool := match p_tied p with Some _ => true | None => false end.
Definition is_free (p : param) : bool := (negb (p_fixed p) && negb (is_tied p))%bool.
Definition not_fixed (p : param) : bool := negb (p_fixed p).
(* astropy.modeling.fitting.fitter_to_model_params: the given values go to the parameters that are neither fixed nor tied, in
   order; the tied ones are computed afterwards from the parameters of the model *)
Fixpoint set_free (ps : list param) (pars : list R) : result (list R) :=
  match ps with
  | [] => Ok []
  | p :: ps' =>
      if is_free p then match pars with [] => Err ValueError | v :: pars' => let! r := set_free ps' pars' in Ok (v :: r) end
      else let! r := set_free ps' pars in Ok (p_value p :: r)
  end.
Definition fitter_to_model_params (ps : list param) (pars : list R) : result (list R) :=
  let! vals := set_free ps pars in
  Ok (map (fun pv => match p_tied (fst pv) with Some f => f vals | None => snd pv end) (combine ps vals)).

Record astromodel := mkModel { m_params : list param; m_eval : list R -> R -> option R }.
(* posterior.py:264-267, 352-355, 643-646 (not fixed); 442-445, 538-541 (not fixed and not tied) *)
Definition npar_not_fixed (md : astromodel) : nat := List.length (filter not_fixed (m_params md)).
Definition npar_free (md : astromodel) : nat := List.length (filter is_free (m_params md)).

(* The common part of evaluate, posterior.py:293-298, 306-311 (and 381-386, 390-395; 471-476, 490-495; 567-572, 577-582).
   x, y and yerr have the same length. *)
Definition evaluate_with (npar : nat) (md : astromodel) (x : list R) (loglike : list (option R) -> result (option R))
    (pars : list R) (neg : bool) : result R :=
  if negb (Nat.eqb (List.length pars) npar) then Err IncorrectParameterError
  else
    let! vals := fitter_to_model_params (m_params md) pars in
    let! v := loglike (map (m_eval md vals) x) in
    let r := assign_if_not_finite v logmin in
    Ok (if neg then - r else r).

(* posterior.py:300-304 *)
Definition gaussian_term (y yerr : R) (mean_model : option R) : option R :=
  osub (osub (Some (- (1 / 2) * ln (2 * PI))) (olog (Some yerr)))
       (odiv (option_map (fun s => (y - s) ^ 2) mean_model) (Some (2 * yerr ^ 2))).
Definition gaussian_loglike (y yerr : list R) (mean_model : list (option R)) : option R :=
  osum (map (fun q => gaussian_term (fst (fst q)) (snd (fst q)) (snd q)) (combine (combine y yerr) mean_model)).
(* posterior.py:269-311 GaussianLogLikelihood.evaluate *)
Definition gaussian_evaluate (md : astromodel) (x y yerr pars : list R) (neg : bool) : result R :=
  evaluate_with (npar_not_fixed md) md x (fun mm => Ok (gaussian_loglike y yerr mm)) pars neg.

(* posterior.py:388; gammaln is scipy.special.gammaln *)
Definition poisson_term (gammaln : R -> R) (y : R) (mean_model : option R) : option R :=
  osub (oadd (oneg mean_model) (omul (Some y) (olog mean_model))) (Some (gammaln (y + 1))).
Definition poisson_loglike (gammaln : R -> R) (y : list R) (mean_model : list (option R)) : option R :=
  osum (map (fun q => poisson_term gammaln (fst q) (snd q)) (combine y mean_model)).
(* posterior.py:357-395 PoissonLogLikelihood.evaluate *)
Definition poisson_evaluate (gammaln : R -> R) (md : astromodel) (x y pars : list R) (neg : bool) : result R :=
  evaluate_with (npar_not_fixed md) md x (fun mm => Ok (poisson_loglike gammaln y mm)) pars neg.

(* posterior.py:478-488; m is a number or an array of the length of the data *)
Inductive multiplicity := MScalar (m : R) | MArray (ms : list R).
Definition psd_loglike_m (ms y : list R) (mean_model : list (option R)) : option R :=
  let dof := map (fun m => 2 * m) ms in
  oneg (oadd (oadd
    (osum (map (fun q => omul (Some (fst q)) (olog (snd q))) (combine dof mean_model)))
    (osum (map (fun q => odiv (Some (fst (fst q) * snd (fst q))) (snd q)) (combine (combine dof y) mean_model))))
    (osum (map (fun q => omul (omul (Some (fst q)) (osub (odiv (Some 2) (Some (fst q))) (Some 1))) (olog (Some (snd q)))) (combine dof y)))).
Definition psd_loglike (m : multiplicity) (y : list R) (mean_model : list (option R)) : result (option R) :=
  match m with
  | MScalar v =>
      if Req_EM_T v 1 then
        Ok (osub (oneg (osum (map olog mean_model))) (osum (map (fun q => odiv (Some (fst q)) (snd q)) (combine y mean_model))))
      else if Req_EM_T v 0 then Err ZeroDivisionError
      else Ok (psd_loglike_m (repeat v (List.length y)) y mean_model)
  | MArray ms => Ok (psd_loglike_m ms y mean_model)
  end.
(* posterior.py:447-495 PSDLogLikelihood.evaluate *)
Definition psd_evaluate (m : multiplicity) (md : astromodel) (x y pars : list R) (neg : bool) : result R :=
  evaluate_with (npar_free md) md x (psd_loglike m y) pars neg.

(* posterior.py:575 *)
Definition laplace_term (y yerr : R) (mean_model : option R) : option R :=
  osub (oneg (olog (Some (2 * yerr)))) (odiv (option_map (fun s => Rabs (y - s)) mean_model) (Some yerr)).
Definition laplace_loglike (y yerr : list R) (mean_model : list (option R)) : option R :=
  osum (map (fun q => laplace_term (fst (fst q)) (snd (fst q)) (snd q)) (combine (combine y yerr) mean_model)).
(* posterior.py:543-582 LaplaceLogLikelihood.evaluate *)
Definition laplace_evaluate (md : astromodel) (x y yerr pars : list R) (neg : bool) : result R :=
  evaluate_with (npar_free md) md x (fun mm => Ok (laplace_loglike y yerr mm)) pars neg.

(* posterior.py:58-171 set_logprior; a prior gives its (possibly not finite) density, and None in the dictionary is a missing key *)
Fixpoint logprior_loop (priors : string -> option (R -> option R)) (ps : list param) (t0 : list R) (logp : option R) : result (option R) :=
  match ps with
  | [] => Ok logp
  | p :: ps' =>
      if p_fixed p then logprior_loop priors ps' t0 logp
      else match priors (p_name p) with
           | None => Err KeyError
           | Some f =>
               match t0 with
               | [] => Err IndexError
               | t :: t0' => logprior_loop priors ps' t0' (oadd logp (olog (f t)))
               end
           end
  end.
Definition set_logprior (md : astromodel) (priors : string -> option (R -> option R)) (t0 : list R) (neg : bool) : result R :=
  if negb (Nat.eqb (List.length t0) (npar_not_fixed md)) then Err IncorrectParameterError
  else
    let! v := logprior_loop priors (m_params md) t0 (Some 0) in
    let logp := assign_if_not_finite v logmin in
    Ok (if neg then - logp else logp).

(* np.isclose with its default tolerances *)
Definition close_to (a b : R) : bool := if Rle_dec (Rabs (a - b)) (1 / 10 ^ 8 + 1 / 10 ^ 5 * Rabs b) then true else false.
(* posterior.py:648-698 Posterior.logposterior; None: the attribute does not exist *)
Definition logposterior (logprior loglikelihood : option (list R -> bool -> result R)) (t0 : list R) (neg : bool) : result R :=
  match logprior with
  | None => Err PriorUndefinedError
  | Some prior =>
      match loglikelihood with
      | None => Err LikelihoodUndefinedError
      | Some like =>
          let! logpr := prior t0 false in
          let! loglike := like t0 false in
          let lpost := if close_to logpr logmin then logmin else logpr + loglike in
          Ok (if neg then - lpost else lpost)
      end
  end.
(* posterior.py:752-759, 802-811, 846-854, 889-897: the constructors of the four posteriors *)
Notation prior_dict := (string -> option (R -> option R)).
Definition prior_of (md : astromodel) (priors : option prior_dict) : option (list R -> bool -> result R) :=
  option_map (set_logprior md) priors.
Definition psd_posterior (m : multiplicity) (md : astromodel) (x y : list R) (priors : option prior_dict) :=
  logposterior (prior_of md priors) (Some (psd_evaluate m md x y)).
Definition poisson_posterior (gammaln : R -> R) (md : astromodel) (x y : list R) (priors : option prior_dict) :=
  logposterior (prior_of md priors) (Some (poisson_evaluate gammaln md x y)).
Definition gaussian_posterior (md : astromodel) (x y yerr : list R) (priors : option prior_dict) :=
  logposterior (prior_of md priors) (Some (gaussian_evaluate md x y yerr)).
Definition laplace_posterior (md : astromodel) (x y yerr : list R) (priors : option prior_dict) :=
  logposterior (prior_of md priors) (Some (laplace_evaluate md x y yerr)).
