(* M_signif.v: model of the significances, upper limits and coherences of spectrum objects (stingray/powerspectrum.py,
   stingray/crossspectrum.py, stingray/stats.py).  Numbers are exact reals. *)
From Verif Require Import Np Cplx M_fourier M_stats M_zn.
From Coq Require Import Reals.
Open Scope R_scope.

(* The attribute m: a number, or one number per power. *)
Inductive mattr := MOne (m : nat) | MEach (l : list nat).
Definition Rltb (x y : R) : bool := if Rlt_dec x y then true else false.
(* powerspectrum.py:326-330, crossspectrum.py:1208-1212: np.where(pv < threshold) and the stack of p-values and indices *)
Definition report (pv : list R) (threshold : R) : list (R * nat) :=
  filter (fun p => Rltb (fst p) threshold) (combine pv (seq 0 (length pv))).

Section Library.
(* scipy.stats.chi2.sf *)
Variable chi2_sf : R -> nat -> R.
(* powerspectrum.py:253-330 classical_significances; leahy = the norm is "leahy" *)
Definition ps_significances (leahy : bool) (power : list R) (m : mattr) (threshold : R) (trial_correction : bool)
  : result (list (R * nat)) :=
  if negb leahy then Err ValueError
  else
    let ntrial := if trial_correction then length power else 1%nat in
    let pv := match m with
              | MOne m => map (fun p => pds_probability chi2_sf p ntrial m 1) power
              | MEach ms => map (fun pm => pds_probability chi2_sf (fst pm) ntrial (snd pm) 1) (combine power ms)
              end in
    Ok (report pv threshold).

(* scipy.special.gammaincc (regularised upper incomplete gamma function), scipy.stats.laplace(0, 1).sf and
   scipy.stats.norm(0, sigma).sf *)
Variable gammaincc : nat -> R -> R.
Variable laplace_sf : R -> R.
Variable norm_sf : R -> R -> R.
(* crossspectrum.py:349-364: the term of one j; scipy.special.gamma(k) of a positive integer is (k-1)! *)
Definition cospectra_term (x : R) (n j : nat) : R :=
  let prefac := INR (fact (n - 1 + j)) / (INR (fact (n - 1)) * (INR (fact (n - 1 - j)) * INR (fact j)) * 2 ^ (n + j)) in
  let gf := (n - j)%nat in
  let first_fac := INR (fact (gf - 1)) in
  let fac := if Rle_dec 0 x then 2 * first_fac - gammaincc gf (INR n * x) * first_fac
             else gammaincc gf (- INR n * x) * first_fac in
  prefac * fac.
(* crossspectrum.py:326-369 _averaged_cospectra_cdf, one power.  [cast] is the conversion when a value is stored in the
   array np.zeros_like(xcoord): the identity for a float power, truncation for an integer power. *)
Definition cospectra_cdf (cast : R -> R) (x : R) (n : nat) : R :=
  fold_left (fun cdf j => cast (cdf + cospectra_term x n j)) (seq 0 n) 0.
(* crossspectrum.py:372-449 cospectra_pvalue, finite power and integer nspec *)
Definition cospectra_pvalue (cast : R -> R) (power : R) (nspec : nat) : result R :=
  if Nat.ltb nspec 1 then Err ValueError
  else if Nat.eqb nspec 1 then Ok (laplace_sf power)
  else if Nat.ltb 50 nspec then Ok (norm_sf (sqrt 2 / sqrt (INR nspec)) power)
  else Ok (1 - cospectra_cdf cast power nspec).
(* crossspectrum.py:1144-1214 classical_significances *)
Definition cs_significances (leahy : bool) (power : list R) (m : mattr) (threshold : R) (trial_correction : bool)
  : result (list (R * nat)) :=
  if negb leahy then Err ValueError
  else
    let! pv := match m with
               | MOne m => mapr (fun p => cospectra_pvalue (fun v => v) p m) power
               | MEach ms => mapr (fun pm => cospectra_pvalue (fun v => v) (fst pm) (snd pm)) (combine power ms)
               end in
    let threshold := if trial_correction then threshold / INR (length power) else threshold in
    Ok (report pv threshold).

(* stats.py:948-1003 power_upper_limit: the numerical minimisation over non-central chi squared quantiles *)
Variable power_upper_limit : R -> nat -> R -> R.
(* stats.py:1006-1073 amplitude_upper_limit *)
Definition amplitude_upper_limit (pmeas counts : R) (n : nat) (c : R) (fft_corr : bool) (nyq_ratio : R) : R :=
  let uplim := power_upper_limit pmeas n c in
  let a := a_from_ssig uplim counts in
  let a := if fft_corr then a * (1 / sqrt (773 / 1000)) else a in
  if Rlt_dec 0 nyq_ratio then
    let factor := PI / 2 * nyq_ratio in
    a / (sin factor / factor)
  else a.
(* stats.py:1076-1127 pf_upper_limit *)
Definition pf_upper_limit (pmeas counts : R) (n : nat) (c : R) (fft_corr : bool) (nyq_ratio : R) : R :=
  pf_from_a (amplitude_upper_limit pmeas counts n c fft_corr nyq_ratio).
(* np.max *)
Definition rmax_list (l : list R) : result R :=
  match l with [] => Err ValueError | a :: l' => Ok (fold_left Rmax l' a) end.
(* powerspectrum.py:394-402: the mask on the frequencies *)
Definition freq_ok (fmin fmax : option R) (f : R) : bool :=
  Rltb 0 f && match fmin with Some a => negb (Rltb f a) | None => true end
  && match fmax with Some b => negb (Rltb b f) | None => true end.
(* powerspectrum.py:332-414 modulation_upper_limit of a Leahy-normalised spectrum (other norms are converted first:
   to_norm is modelled elsewhere), m a number; freq and power of the same length *)
Definition modulation_upper_limit (freq power : list R) (m : nat) (nphots : R) (fmin fmax : option R) (c : R) : result R :=
  let! fnyq := rmax_list freq in
  let kept := filter (fun fp => freq_ok fmin fmax (fst fp)) (combine freq power) in
  let! i := argmax (map snd kept) in
  let! fp := get kept i in
  Ok (amplitude_upper_limit (snd fp * INR m) nphots m c true (fst fp / fnyq)).
End Library.

(* crossspectrum.py:1002-1026 Crossspectrum.coherence, one frequency; pds1 and pds2 are the unnormalised powers *)
Definition cs_coherence (unnorm : cx) (pds1 pds2 : R) (n : nat) : R := raw_coherence unnorm pds1 pds2 0 0 n 1.
(* crossspectrum.py:2084-2131 AveragedCrossspectrum.coherence, one frequency.  poisson_level(norm="none") is the number of
   photons; n is the number of bins of a segment, m the number of averaged segments (and frequencies). *)
Definition acs_coherence (unnorm : cx) (pds1 pds2 nphots1 nphots2 : R) (n : nat) (m : R) : R * R :=
  let coh := raw_coherence unnorm pds1 pds2 nphots1 nphots2 n 1 in
  let uncertainty := sqrt 2 * coh * (1 - coh) / (sqrt coh * sqrt m) in
  (coh, if Req_EM_T coh 0 then 0 else uncertainty).

(* powerspectrum.py:215-251 _rms_error (lombscargle.py:470-506 is the same code); scipy.stats.chi2(2 m).var() = 2 (2 m) *)
Definition rms_error (powers : list R) (nphots : R) (m : nat) : R :=
  let p_err := map (fun p => 2 * (2 * INR m) * p / INR m / nphots) powers in
  let rms := rlsum powers / nphots in
  let drms_dp := 1 / (2 * sqrt rms) in
  sqrt (rlsum (map (fun e => e * e) p_err)) * drms_dp.
