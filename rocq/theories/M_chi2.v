(* M_chi2.v: model of the log probabilities and equivalent sigmas of stingray/stats.py.  Numbers are exact reals; rounding,
   overflow and underflow are not modelled. *)
From Verif Require Import Np M_stats.
From Coq Require Import Reals.
Open Scope R_scope.

(* stats.py:41-59 _extended_equiv_gaussian_Nsigma *)
Definition extended_equiv_gaussian_Nsigma (logp : R) : R :=
  let t := sqrt (- 2 * logp) in
  let num := 2515517 / 10 ^ 6 + t * (802853 / 10 ^ 6 + t * (10328 / 10 ^ 6)) in
  let denom := 1 + t * (1432788 / 10 ^ 6 + t * (189269 / 10 ^ 6 + t * (1308 / 10 ^ 6))) in
  t - num / denom.

(* stats.py:119-141 _log_asymptotic_incomplete_gamma; fuel bounds the turns of the loop *)
Fixpoint inc_loop (fuel : nat) (a z x newxpart term : R) (ii : nat) : result R :=
  match fuel with
  | O => Err OutOfFuel
  | S fuel =>
    if Rlt_dec (1 / 10 ^ 15) (Rabs newxpart) then
      let term := term * (a - INR ii) in
      let newxpart := term / z ^ ii in
      inc_loop fuel a z (x + newxpart) newxpart term (S ii)
    else Ok x
  end.
Definition log_asymptotic_incomplete_gamma (fuel : nat) (a z : R) : result R :=
  let! x := inc_loop fuel a z 1 1 1 1 in Ok ((a - 1) * ln z - z + ln x).

(* stats.py:144-161 _log_asymptotic_gamma; the constants are the decimals of the source *)
Definition log_asymptotic_gamma (z : R) : R :=
  let half_log_twopi := 91893853320467267 / 10 ^ 17 in
  let one_twelfth := 83333333333333333333333 / 10 ^ 24 in
  let one_degree := 27777777777777777777778 / 10 ^ 25 in
  let one_over_1680 := 59523809523809529 / 10 ^ 20 in
  let one_over_1260 := 79365079365079365079365 / 10 ^ 26 in
  let x := (z - 5 / 10) * ln z - z + half_log_twopi in
  let y := 1 / (z * z) in
  x + (((- one_over_1680 * y + one_over_1260) * y - one_degree) * y + one_twelfth) / z.

Section Library.
(* scipy.stats.norm.isf, chi2.logsf and beta.cdf, beta.logcdf, beta.ppf (library) *)
Variable norm_isf : R -> R.
Variable chi2_logsf : R -> nat -> R.
Variables beta_cdf beta_logcdf beta_ppf : R -> R -> R -> R.

(* stats.py:62-92 equivalent_gaussian_Nsigma_from_logp and 95-116 equivalent_gaussian_Nsigma, one element *)
Definition equivalent_gaussian_Nsigma_from_logp (logp : R) : R :=
  if Rlt_dec logp (-300) then extended_equiv_gaussian_Nsigma logp else norm_isf (exp logp).
Definition equivalent_gaussian_Nsigma (p : R) : R := equivalent_gaussian_Nsigma_from_logp (ln p).

(* stats.py:164-200 chi2_logp, one element, an integer number of degrees of freedom *)
Definition chi2_logp (fuel : nat) (chi2 : R) (dof : nat) : result R :=
  if Nat.ltb dof 2 then Err ValueError
  else if (if Rlt_dec 15 (chi2 / INR dof) then true else false)
       || (Nat.ltb 150 dof && (if Rlt_dec 6 (chi2 / INR dof) then true else false)) then
    let! g := log_asymptotic_incomplete_gamma fuel (5 / 10 * INR dof) (5 / 10 * chi2) in
    Ok (g - log_asymptotic_gamma (5 / 10 * INR dof))
  else Ok (chi2_logsf chi2 dof).

(* stats.py:405-426 fold_profile_logprobability, nbin >= 1 *)
Definition fold_profile_logprobability (fuel : nat) (stat : R) (nbin ntrial : nat) : result R :=
  let! p1 := chi2_logp fuel stat (nbin - 1) in Ok (logp_multitrial p1 ntrial).
(* stats.py:593-618 z2_n_logprobability *)
Definition z2_n_logprobability (fuel : nat) (z2 : R) (n ntrial n_summed : nat) : result R :=
  let! p1 := chi2_logp fuel (z2 * INR n_summed) (2 * n * n_summed) in Ok (logp_multitrial p1 ntrial).
(* stats.py:691-737 pds_logprobability *)
Definition pds_logprobability (fuel : nat) (level : R) (ntrial n_summed n_rebin : nat) : result R :=
  let! p1 := chi2_logp fuel (level * INR n_summed * INR n_rebin) (2 * n_summed * n_rebin) in Ok (logp_multitrial p1 ntrial).

(* stats.py:457-490 phase_dispersion_probability, 493-526 phase_dispersion_logprobability and
   529-563 phase_dispersion_detection_level (None is nan) *)
Definition phase_dispersion_probability (stat : R) (nsamples nbin ntrial : nat) : R :=
  let d2 := INR nsamples - INR nbin in
  let d1 := INR nbin - 1 in
  p_multitrial (beta_cdf (d2 / 2) (d1 / 2) stat) ntrial.
Definition phase_dispersion_logprobability (stat : R) (nsamples nbin ntrial : nat) : R :=
  let d2 := INR nsamples - INR nbin in
  let d1 := INR nbin - 1 in
  logp_multitrial (beta_logcdf (d2 / 2) (d1 / 2) stat) ntrial.
Definition phase_dispersion_detection_level (nsamples nbin : nat) (epsilon : R) (ntrial : nat) : option R :=
  let d2 := INR nsamples - INR nbin in
  let d1 := INR nbin - 1 in
  option_map (fun e => beta_ppf (d2 / 2) (d1 / 2) e) (p_single_trial epsilon ntrial).
End Library.
