(* T_scripts.v: theorems about the fits of power spectra with one call, stingray/modeling/scripts.py. *)
From Coq Require Import String DecimalString Decimal.
From Verif Require Import Np M_utils M_exvar M_posterior M_scripts S_scripts P_scripts.
From Coq Require Import Reals List Bool Arith ZArith Lia Lra.
Import ListNotations.
Open Scope R_scope.

(* ---------- C200: fits with one call ---------- *)
Theorem C200_likelihood : forall (minimize : string -> (list R -> result R) -> list R -> result (list R)) (md : astromodel) (m : multiplicity) (x y t0 : list R) (mp :
  bool) (method : string), List.length t0 = npar_free md -> fit_powerspectrum minimize md m x y (Sequence t0) mp None method = minimize method (fun p : list R =>
  psd_evaluate m md x y p true) t0.
Proof. exact @fit_likelihood. Qed.
Print Assumptions C200_likelihood.
Theorem C200_posterior : forall (minimize : string -> (list R -> result R) -> list R -> result (list R)) (md : astromodel) (m : multiplicity) (x y t0 : list R) (priors :
  prior_dict) (method : string), List.length t0 = npar_not_fixed md -> fit_powerspectrum minimize md m x y (Sequence t0) true (Some priors) method = minimize method (fun p
  : list R => psd_posterior m md x y (Some priors) p true) t0.
Proof. exact @fit_posterior. Qed.
Print Assumptions C200_posterior.
Theorem C200_priors_unused : forall (minimize : string -> (list R -> result R) -> list R -> result (list R)) (md : astromodel) (m : multiplicity) (x y t0 : list R)
  (priors : prior_dict) (method : string), (forall p : param, In p (m_params md) -> is_tied p = false) -> fit_powerspectrum minimize md m x y (Sequence t0) false (Some
  priors) method = fit_powerspectrum minimize md m x y (Sequence t0) false None method.
Proof. exact @fit_priors_unused. Qed.
Print Assumptions C200_priors_unused.
Theorem C200_length_error : forall (minimize : string -> (list R -> result R) -> list R -> result (list R)) (md : astromodel) (m : multiplicity) (x y t0 : list R) (mp :
  bool) (priors : option prior_dict) (method : string), (forall p : prior_dict, priors = Some p -> List.length t0 <> npar_not_fixed md) -> (priors = None -> List.length t0
  <> npar_free md) -> fit_powerspectrum minimize md m x y (Sequence t0) mp priors method = Err ValueError.
Proof. exact @fit_length. Qed.
Print Assumptions C200_length_error.
Theorem C200_default : forall (minimize : string -> (list R -> result R) -> list R -> result (list R)) (md : astromodel) (m : multiplicity) (x y : list R) (mp : bool)
  (method : string), (forall p : param, In p (m_params md) -> is_free p = true) -> fit_powerspectrum minimize md m x y NoStart mp None method = minimize method (fun p :
  list R => psd_evaluate m md x y p true) (map p_value (m_params md)).
Proof. exact @fit_default_free. Qed.
Print Assumptions C200_default.
Theorem C200_default_fixed_error : forall (minimize : string -> (list R -> result R) -> list R -> result (list R)) (md : astromodel) (m : multiplicity) (x y : list R) (mp
  : bool) (priors : option prior_dict) (method : string), (exists p : param, In p (m_params md) /\ p_fixed p = true) -> fit_powerspectrum minimize md m x y NoStart mp
  priors method = Err ValueError.
Proof. exact @fit_default_fixed. Qed.
Print Assumptions C200_default_fixed_error.
Theorem C200_other_ignored : forall (minimize : string -> (list R -> result R) -> list R -> result (list R)) (md : astromodel) (m : multiplicity) (x y l : list R) (mp :
  bool) (priors : option prior_dict) (method : string), fit_powerspectrum minimize md m x y (OtherIterable l) mp priors method = fit_powerspectrum minimize md m x y NoStart
  mp priors method.
Proof. exact @fit_other. Qed.
Print Assumptions C200_other_ignored.
Theorem C200_tied_error : forall (minimize : string -> (list R -> result R) -> list R -> result (list R)) (md : astromodel) (m : multiplicity) (x y t0 : list R) (mp :
  bool) (priors : prior_dict) (method : string), evaluates minimize -> (exists p : param, In p (m_params md) /\ is_tied p = true /\ p_fixed p = false) -> (forall p : param,
  In p (m_params md) -> p_fixed p = false -> priors (p_name p) <> None) -> fit_powerspectrum minimize md m x y (Sequence t0) mp (Some priors) method = Err (if List.length
  t0 =? npar_not_fixed md then IncorrectParameterError else ValueError).
Proof. exact @fit_tied. Qed.
Print Assumptions C200_tied_error.
Theorem C200_fixed_refuted : exists md : astromodel, forall (minimize : string -> (list R -> result R) -> list R -> result (list R)) (m : multiplicity) (x y : list R) (mp
  : bool) (priors : option prior_dict) (method : string), fit_powerspectrum minimize md m x y NoStart mp priors method = Err ValueError.
Proof. exact @fixed_refuted. Qed.
Print Assumptions C200_fixed_refuted.
Theorem C200_start_refuted : exists (minimize : string -> (list R -> result R) -> list R -> result (list R)) (md : astromodel) (m : multiplicity) (x y l : list R) (method
  : string), fit_powerspectrum minimize md m x y (OtherIterable l) false None method <> fit_powerspectrum minimize md m x y (Sequence l) false None method.
Proof. exact @start_refuted. Qed.
Print Assumptions C200_start_refuted.
Theorem C200_max_post_refuted : exists (minimize : string -> (list R -> result R) -> list R -> result (list R)) (md : astromodel) (m : multiplicity) (x y l : list R)
  (method : string) (r : list R), fit_powerspectrum minimize md m x y (Sequence l) true None method = Ok r.
Proof. exact @max_post_refuted. Qed.
Print Assumptions C200_max_post_refuted.
Theorem C200_tied_refuted : exists (md : astromodel) (priors : prior_dict), (forall p : param, In p (m_params md) -> priors (p_name p) <> None) /\ (forall (minimize :
  string -> (list R -> result R) -> list R -> result (list R)) (m : multiplicity) (x y t0 : list R) (mp : bool) (method : string), evaluates minimize -> exists e : exn,
  fit_powerspectrum minimize md m x y (Sequence t0) mp (Some priors) method = Err e).
Proof. exact @tied_refuted. Qed.
Print Assumptions C200_tied_refuted.
Example C200_nonvacuous : evaluates one_call /\ (exists p, In p (m_params (w_line true None)) /\ p_fixed p = true) /\ (forall p, In p (m_params (w_line false None)) -> is_free p = true) /\
  List.length [3; 4] = npar_free (w_line false None).
Proof.
  split; [exact one_call_evaluates|]. split; [exists (mkParam "b" 2 true None); split; [right; left; reflexivity|reflexivity]|]. split; [|reflexivity].
  intros p [<-|[<-|[]]]; reflexivity.
Qed.

(* ---------- C201: Lorentzians ---------- *)
Theorem C201_value : forall (l : list (R * R * R)) (noise x : R), l <> [] -> (forall a x0 w : R, In (a, x0, w) l -> w <> 0) -> m_eval (sum_model (lorentzians (Z.of_nat
  (List.length l)) true)) (listed l ++ [noise]) x = Some (lorentz_sum l noise x) /\ m_eval (sum_model (lorentzians (Z.of_nat (List.length l)) false)) (listed l) x = Some
  (lorentz_sum l 0 x).
Proof. exact @lorentzians_value. Qed.
Print Assumptions C201_value.
Theorem C201_names : forall n : nat, (0 < n)%nat -> map p_name (m_params (sum_model (lorentzians (Z.of_nat n) true))) = documented n.
Proof. exact @names_documented. Qed.
Print Assumptions C201_names.
Theorem C201_parameters : forall (n : nat) (white : bool), (0 < n)%nat -> npar_free (sum_model (lorentzians (Z.of_nat n) white)) = (3 * n + (if white then 1 else 0))%nat.
Proof. exact @number_of_parameters. Qed.
Print Assumptions C201_parameters.
Theorem C201_few : forall (nlor : Z) (white : bool), (nlor <= 1)%Z -> lorentzians nlor white = lorentzians 1 white.
Proof. exact @lorentzians_few. Qed.
Print Assumptions C201_few.
Theorem C201_zero_refuted : exists nlor : Z, npar_free (sum_model (lorentzians nlor true)) <> Z.to_nat (3 * nlor + 1).
Proof. exact @zero_refuted. Qed.
Print Assumptions C201_zero_refuted.
Theorem C201_single_refuted : exists n : nat, map p_name (m_params (sum_model (lorentzians (Z.of_nat n) false))) <> removelast (documented n).
Proof. exact @single_refuted. Qed.
Print Assumptions C201_single_refuted.
Example C201_nonvacuous : m_eval (sum_model (lorentzians 2 true)) (listed [(4, 1, 2); (6, 3, 4)] ++ [1]) 1 = Some (4 + 3 + 1).
Proof.
  eapply eq_trans; [exact (proj1 (lorentzians_value [(4, 1, 2); (6, 3, 4)] 1 1 ltac:(discriminate) ltac:(intros a x0 w [E|[E|[]]]; injection E as <- <- <-; lra)))|]. f_equal. unfold lorentz_sum. cbn. field.
Qed.
Theorem C200_cross_likelihood : forall (minimize : string -> (list R -> result R) -> list R -> result (list R)) (md : astromodel) (x y yerr t0 : list R) (mp : bool)
  (method : string), List.length t0 = npar_not_fixed md -> fit_crossspectrum minimize md x y yerr (Sequence t0) mp None method = minimize method (fun p : list R =>
  gaussian_evaluate md x y yerr p true) t0.
Proof. exact @cross_likelihood. Qed.
Print Assumptions C200_cross_likelihood.
Theorem C200_cross_posterior : forall (minimize : string -> (list R -> result R) -> list R -> result (list R)) (md : astromodel) (x y yerr t0 : list R) (priors :
  prior_dict) (method : string), List.length t0 = npar_not_fixed md -> fit_crossspectrum minimize md x y yerr (Sequence t0) true (Some priors) method = minimize method (fun
  p : list R => gaussian_posterior md x y yerr (Some priors) p true) t0.
Proof. exact @cross_posterior. Qed.
Print Assumptions C200_cross_posterior.
Theorem C200_cross_unused : forall (minimize : string -> (list R -> result R) -> list R -> result (list R)) (md : astromodel) (x y yerr : list R) (t0 : start) (priors :
  prior_dict) (method : string), fit_crossspectrum minimize md x y yerr t0 false (Some priors) method = fit_crossspectrum minimize md x y yerr t0 false None method.
Proof. exact @cross_unused. Qed.
Print Assumptions C200_cross_unused.
Theorem C200_cross_length_error : forall (minimize : string -> (list R -> result R) -> list R -> result (list R)) (md : astromodel) (x y yerr t0 : list R) (mp : bool)
  (priors : option prior_dict) (method : string), List.length t0 <> npar_not_fixed md -> fit_crossspectrum minimize md x y yerr (Sequence t0) mp priors method = Err
  ValueError.
Proof. exact @cross_length. Qed.
Print Assumptions C200_cross_length_error.
Theorem C201_posterior : forall (minimize : string -> (list R -> result R) -> list R -> result (list R)) (m : multiplicity) (x y : list R) (nlor : Z) (white : bool) (t0 :
  list R) (priors : prior_dict) (method : string), List.length t0 = npar_not_fixed (sum_model (lorentzians nlor white)) -> fit_lorentzians minimize m x y nlor (Sequence t0)
  white true (Some priors) method = minimize method (fun p : list R => psd_posterior m (sum_model (lorentzians nlor white)) x y (Some priors) p true) t0.
Proof. exact @lorentzians_posterior. Qed.
Print Assumptions C201_posterior.
Theorem C201_likelihood : forall (minimize : string -> (list R -> result R) -> list R -> result (list R)) (m : multiplicity) (x y : list R) (nlor : Z) (white : bool) (t0
  : list R) (mp : bool) (method : string), List.length t0 = npar_free (sum_model (lorentzians nlor white)) -> fit_lorentzians minimize m x y nlor (Sequence t0) white mp
  None method = minimize method (fun p : list R => psd_evaluate m (sum_model (lorentzians nlor white)) x y p true) t0.
Proof. exact @lorentzians_likelihood. Qed.
Print Assumptions C201_likelihood.
