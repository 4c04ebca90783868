(* M_stats.v: model of stingray/stats.py.  Numbers are exact reals (stdlib R); rounding is not
   modelled.  [ln 0] is not -inf here: theorems exclude it, except in pavnosigfun below, whose
   special values are modelled. *)
From Verif Require Import Np.
From Coq Require Import Reals.
Open Scope R_scope.

(* stats.py:1130-1148 pf_from_a *)
Definition pf_from_a (a : R) : R := 2 * a / (1 + a).
(* stats.py:1151-1169 a_from_pf *)
Definition a_from_pf (p : R) : R := p / (2 - p).
(* stats.py:1172-1188 ssig_from_a *)
Definition ssig_from_a (a ncounts : R) : R := ncounts / 2 * (a * a).
(* stats.py:1191-1206 a_from_ssig *)
Definition a_from_ssig (ssig ncounts : R) : R := sqrt (2 * ssig / ncounts).
(* stats.py:1209-1219 ssig_from_pf *)
Definition ssig_from_pf (pf ncounts : R) : R := let a := a_from_pf pf in ncounts / 2 * (a * a).
(* stats.py:1222-1232 pf_from_ssig *)
Definition pf_from_ssig (ssig ncounts : R) : R := pf_from_a (a_from_ssig ssig ncounts).

(* stats.py:212-238 _logp_multitrial_from_single_logp, one element, n >= 1 trials *)
Definition logp_multitrial (logp1 : R) (n : nat) : R :=
  let logn := ln (INR n) in
  if Rlt_dec (logp1 + logn) (-7) then logp1 + logn
  else ln (1 - (1 - exp logp1) ^ n).
(* stats.py:241-276 p_multitrial_from_single_trial *)
Definition p_multitrial (p1 : R) (n : nat) : R := exp (logp_multitrial (ln p1) n).

(* stats.py:287-317 _logp_single_trial_from_logp_multitrial, one element; None is nan.
   np.finfo(np.double).resolution = 1e-15. *)
Definition logp_single_trial (logpn : R) (n : nat) : option R :=
  let logn := ln (INR n) in
  if Rlt_dec logpn (-7) then Some (logpn - logn)
  else if Rlt_dec (1 - exp logpn) (1 / 10 ^ 15 * 1000) then None
  else Some (ln (1 - Rpower (1 - exp logpn) (1 / INR n))).
(* stats.py:320-378 p_single_trial_from_p_multitrial; the warnings are left out *)
Definition p_single_trial (pn : R) (n : nat) : option R :=
  option_map exp (logp_single_trial (ln pn) n).

Section Chi2.
(* scipy.stats.chi2.sf and chi2.isf (library), second argument the degrees of freedom *)
Variables chi2_sf chi2_isf : R -> nat -> R.

(* stats.py:381-402 fold_profile_probability, nbin >= 1 *)
Definition fold_profile_probability (stat : R) (nbin ntrial : nat) : R :=
  p_multitrial (chi2_sf stat (nbin - 1)) ntrial.
(* stats.py:429-454 fold_detection_level; None is nan *)
Definition fold_detection_level (nbin : nat) (epsilon : R) (ntrial : nat) : option R :=
  option_map (fun e => chi2_isf e (nbin - 1)) (p_single_trial epsilon ntrial).
(* stats.py:566-590 z2_n_probability *)
Definition z2_n_probability (z2 : R) (n ntrial n_summed : nat) : R :=
  p_multitrial (chi2_sf (z2 * INR n_summed) (2 * n * n_summed)) ntrial.
(* stats.py:621-652 z2_n_detection_level *)
Definition z2_n_detection_level (n : nat) (epsilon : R) (ntrial n_summed : nat) : option R :=
  option_map (fun e => chi2_isf e (2 * n_summed * n) / INR n_summed) (p_single_trial epsilon ntrial).
(* stats.py:655-688 pds_probability *)
Definition pds_probability (level : R) (ntrial n_summed n_rebin : nat) : R :=
  p_multitrial (chi2_sf (level * INR n_summed * INR n_rebin) (2 * n_summed * n_rebin)) ntrial.
(* stats.py:740-780 pds_detection_level, scalar n_rebin (an iterable repeats this per element) *)
Definition pds_detection_level (epsilon : R) (ntrial n_summed n_rebin : nat) : option R :=
  option_map (fun e => chi2_isf e (2 * n_summed * n_rebin) / (INR n_summed * INR n_rebin))
    (p_single_trial epsilon ntrial).
End Chi2.

(* Floating point numbers with special values, exact otherwise: only what _pavnosigfun needs. *)
Inductive flt := Fin (r : R) | MInf | PInf | NaN.
(* np.log of a non-negative number *)
Definition flog (x : R) : flt := if Req_EM_T x 0 then MInf else Fin (ln x).
(* m * x for a number m >= 0 *)
Definition fscale (m : R) (x : flt) : flt :=
  match x with
  | Fin r => Fin (m * r)
  | MInf => if Req_EM_T m 0 then NaN else MInf
  | PInf => if Req_EM_T m 0 then NaN else PInf
  | NaN => NaN
  end.
(* x - r with a number r *)
Definition fminus (x : flt) (r : R) : flt := match x with Fin a => Fin (a - r) | o => o end.
Definition fexp (x : flt) : flt := match x with Fin a => Fin (exp a) | MInf => Fin 0 | o => o end.
Definition fadd (x y : flt) : flt :=
  match x, y with
  | NaN, _ | _, NaN => NaN
  | Fin a, Fin b => Fin (a + b)
  | PInf, MInf | MInf, PInf => NaN
  | PInf, _ | _, PInf => PInf
  | _, _ => MInf
  end.
(* x / y > c, for x, y that are >= 0 or nan, c > 0; 0/0 is nan, and nan > c is False *)
Definition fratio_gt (x y : flt) (c : R) : bool :=
  match x, y with
  | Fin a, Fin b => if Req_EM_T b 0 then (if Req_EM_T a 0 then false else true)
                    else if Rlt_dec c (a / b) then true else false
  | _, _ => false
  end.

(* stats.py:895-897: the sum s of log(m - i), i < m - 1 *)
Definition logfact (m : nat) : R :=
  fold_left (fun s i => s + ln (INR (m - i))) (seq 0 (m - 1)) 0.
(* stats.py:873-906 _pavnosigfun, integer nspec: the while loop, [k] = m + 1 terms are left *)
Fixpoint pavnosig_loop (k : nat) (pn : R) (sum : flt) : flt :=
  match k with
  | O => sum
  | S m =>
      let term := fexp (fminus (fminus (fscale (INR m) (flog (pn / 2))) (pn / 2)) (logfact m)) in
      if fratio_gt sum term (10 ^ 15) then sum
      else pavnosig_loop m pn (fadd sum term)
  end.
Definition pavnosigfun (power : R) (nspec : nat) : flt := pavnosig_loop nspec (power * INR nspec) (Fin 0).
(* stats.py:783-870 classical_pvalue, finite power and integer nspec (the checks for nan, inf and
   non-integer values are left out) *)
Definition classical_pvalue (power : R) (nspec : nat) : result flt :=
  if Rlt_dec power 0 then Err ValueError
  else if Nat.ltb nspec 1 then Err ValueError
  else if Rlt_dec 30000 (power * INR nspec) then Ok (Fin 0)
  else Ok (pavnosigfun power nspec).
