(* T_posterior.v: property theorems about likelihoods, priors and posteriors (C102, C103, C104, C105). *)
From Coq Require Import String.
From Verif Require Import Np M_utils Cplx M_posterior S_posterior P_posterior P_posterior2 P_posterior3.
From Coq Require Import Reals List Bool Arith Lra Lia.
Import ListNotations.
Open Scope R_scope.

(* ---------- C102: Gaussian and Poisson likelihoods ---------- *)
Theorem C102_gaussian : forall md x y yerr pars theta mus,
  untied md -> filled (kinds md) pars theta -> has_values md theta x mus ->
  List.length y = List.length x -> List.length yerr = List.length x -> Forall (fun e => 0 < e) yerr ->
  exists v, gaussian_evaluate md x y yerr pars false = Ok v /\ gaussian_evaluate md x y yerr pars true = Ok (- v) /\
    exp v = product (map3 normal_density mus yerr y).
Proof. exact gaussian_density. Qed.
Print Assumptions C102_gaussian.
Theorem C102_gaussian_not_finite : forall md x y yerr pars theta,
  untied md -> filled (kinds md) pars theta -> List.length y = List.length x -> List.length yerr = List.length x ->
  (Exists (fun e => e <= 0) yerr \/ Exists (fun xi => m_eval md theta xi = None) x) ->
  gaussian_evaluate md x y yerr pars false = Ok (- 10 ^ 16).
Proof. exact gaussian_not_finite. Qed.
Print Assumptions C102_gaussian_not_finite.
Theorem C102_poisson : forall gammaln : R -> R, (forall k : nat, gammaln (INR k + 1) = ln (INR (fact k))) ->
  forall md x ks pars theta mus,
  untied md -> filled (kinds md) pars theta -> has_values md theta x mus -> List.length ks = List.length x -> Forall (fun mu => 0 < mu) mus ->
  exists v, poisson_evaluate gammaln md x (map INR ks) pars false = Ok v /\ poisson_evaluate gammaln md x (map INR ks) pars true = Ok (- v) /\
    exp v = product (map2 poisson_probability mus ks).
Proof. exact poisson_density. Qed.
Print Assumptions C102_poisson.
Theorem C102_poisson_not_finite : forall (gammaln : R -> R) md x y pars theta,
  untied md -> filled (kinds md) pars theta -> List.length y = List.length x ->
  Exists (fun xi => match m_eval md theta xi with Some mu => mu <= 0 | None => True end) x ->
  poisson_evaluate gammaln md x y pars false = Ok (- 10 ^ 16).
Proof. exact poisson_not_finite. Qed.
Print Assumptions C102_poisson_not_finite.
Theorem C102_number_of_parameters : forall gammaln md m x y yerr pars neg,
  untied md -> List.length pars <> List.length (prior_names md) ->
  gaussian_evaluate md x y yerr pars neg = Err IncorrectParameterError /\ poisson_evaluate gammaln md x y pars neg = Err IncorrectParameterError /\
  psd_evaluate m md x y pars neg = Err IncorrectParameterError /\ laplace_evaluate md x y yerr pars neg = Err IncorrectParameterError.
Proof. exact likelihood_wrong_number. Qed.
Print Assumptions C102_number_of_parameters.
Theorem C102_poisson_zero_refuted : 
  exists gammaln md x ks pars theta mus v,
  (forall k : nat, gammaln (INR k + 1) = ln (INR (fact k))) /\ untied md /\ filled (kinds md) pars theta /\ has_values md theta x mus /\ List.length ks = List.length x /\ Forall (fun mu => 0 <= mu) mus /\
  poisson_evaluate gammaln md x (map INR ks) pars false = Ok v /\ exp v <> product (map2 poisson_probability mus ks).
Proof. exact poisson_zero_refuted. Qed.
Print Assumptions C102_poisson_zero_refuted.

(* a line through a fixed offset *)
Definition line : astromodel :=
  mkModel [mkParam "slope" 1 false None; mkParam "offset" 3 true None] (fun th x => Some (nth 0 th 0 * x + nth 1 th 0)).
Example C102_nonvacuous : untied line /\ filled (kinds line) [2] [2; 3] /\ has_values line [2; 3] [0; 1] [2 * 0 + 3; 2 * 1 + 3] /\
  Forall (fun mu => 0 < mu) [2 * 0 + 3; 2 * 1 + 3].
Proof.
  split; [repeat constructor|]. split; [unfold kinds; cbn; repeat constructor|]. split; [repeat constructor|].
  repeat constructor; lra.
Qed.

(* ---------- C103: likelihood of power spectra ---------- *)
Theorem C103_periodogram : forall md x y pars theta mus,
  untied md -> filled (kinds md) pars theta -> has_values md theta x mus -> List.length y = List.length x -> all_pos mus ->
  exists v, psd_evaluate (MScalar 1) md x y pars false = Ok v /\ psd_evaluate (MScalar 1) md x y pars true = Ok (- v) /\
    exp v = product (map2 exponential_density mus y).
Proof. exact psd_single. Qed.
Print Assumptions C103_periodogram.
Theorem C103_averaged : forall m ms md x y pars theta mus,
  averaged m ms -> untied md -> filled (kinds md) pars theta -> has_values md theta x mus -> List.length y = List.length x -> List.length ms = List.length x ->
  all_pos y -> all_pos mus ->
  exists v, psd_evaluate m md x y pars false = Ok v /\ psd_evaluate m md x y pars true = Ok (- v) /\
    v = 2 * (ln (product (map3 gamma_density ms mus y)) - ln (product (map gamma_constant ms))).
Proof. exact psd_averaged. Qed.
Print Assumptions C103_averaged.
Theorem C103_difference : forall m ms md x y p1 p2 th1 th2 mu1 mu2,
  averaged m ms -> untied md -> filled (kinds md) p1 th1 -> filled (kinds md) p2 th2 -> has_values md th1 x mu1 -> has_values md th2 x mu2 ->
  List.length y = List.length x -> List.length ms = List.length x -> all_pos y -> all_pos mu1 -> all_pos mu2 ->
  exists v1 v2, psd_evaluate m md x y p1 false = Ok v1 /\ psd_evaluate m md x y p2 false = Ok v2 /\
    v1 - v2 = 2 * (ln (product (map3 gamma_density ms mu1 y)) - ln (product (map3 gamma_density ms mu2 y))).
Proof. exact psd_difference. Qed.
Print Assumptions C103_difference.
Theorem C103_not_finite : forall md x y pars theta m ms,
  untied md -> filled (kinds md) pars theta -> List.length y = List.length x -> averaged m ms -> List.length ms = List.length x ->
  (Exists (fun xi => match m_eval md theta xi with Some mu => mu <= 0 | None => True end) x \/ Exists (fun a => a <= 0) y) ->
  psd_evaluate m md x y pars false = Ok (- 10 ^ 16).
Proof. exact psd_not_finite. Qed.
Print Assumptions C103_not_finite.
Theorem C103_zero_error : forall y mm,
  psd_loglike (MScalar 0) y mm = Err ZeroDivisionError.
Proof. exact psd_zero_scalar. Qed.
Print Assumptions C103_zero_error.
Theorem C103_zero_array : forall ms y mm,
  In 0 (firstn (List.length y) ms) -> psd_loglike (MArray ms) y mm = Ok None.
Proof. exact psd_zero_array. Qed.
Print Assumptions C103_zero_array.
Theorem C103_ratio_refuted : 
  exists m ms md x y p1 p2 th1 th2 mu1 mu2 v1 v2,
  averaged m ms /\ untied md /\ filled (kinds md) p1 th1 /\ filled (kinds md) p2 th2 /\ has_values md th1 x mu1 /\ has_values md th2 x mu2 /\
  List.length y = List.length x /\ List.length ms = List.length x /\ all_pos y /\ all_pos mu1 /\ all_pos mu2 /\
  psd_evaluate m md x y p1 false = Ok v1 /\ psd_evaluate m md x y p2 false = Ok v2 /\
  v1 - v2 <> ln (product (map3 gamma_density ms mu1 y)) - ln (product (map3 gamma_density ms mu2 y)).
Proof. exact psd_ratio_refuted. Qed.
Print Assumptions C103_ratio_refuted.
Theorem C103_array_refuted : 
  exists md x y pars theta mus v w,
  untied md /\ filled (kinds md) pars theta /\ has_values md theta x mus /\ List.length y = List.length x /\ all_pos y /\ all_pos mus /\
  psd_evaluate (MScalar 1) md x y pars false = Ok v /\ psd_evaluate (MArray (map (fun _ => 1) x)) md x y pars false = Ok w /\ v <> w.
Proof. exact psd_array_refuted. Qed.
Print Assumptions C103_array_refuted.

Example C103_nonvacuous : averaged (MScalar (INR 3)) [3%nat; 3%nat] /\ averaged (MArray (map INR [1%nat; 4%nat])) [1%nat; 4%nat] /\ all_pos [1; 2].
Proof. split; [apply (averaged_scalar 3 2); lia|]. split; [apply averaged_array; repeat constructor; lia|]. repeat constructor; lra. Qed.

(* ---------- C104: Laplace likelihood ---------- *)
Theorem C104_laplace : forall md x y yerr pars theta mus,
  untied md -> filled (kinds md) pars theta -> has_values md theta x mus ->
  List.length y = List.length x -> List.length yerr = List.length x -> Forall (fun e => 0 < e) yerr ->
  exists v, laplace_evaluate md x y yerr pars false = Ok v /\ laplace_evaluate md x y yerr pars true = Ok (- v) /\
    exp v = product (map3 laplace_density_of_scale mus yerr y).
Proof. exact laplace_density_scale. Qed.
Print Assumptions C104_laplace.
Theorem C104_standard_deviation_refuted : 
  exists md x y yerr pars theta mus v,
  untied md /\ filled (kinds md) pars theta /\ has_values md theta x mus /\ List.length y = List.length x /\ List.length yerr = List.length x /\
  Forall (fun e => 0 < e) yerr /\ laplace_evaluate md x y yerr pars false = Ok v /\ exp v <> product (map3 laplace_density mus yerr y).
Proof. exact laplace_std_refuted. Qed.
Print Assumptions C104_standard_deviation_refuted.

Example C104_nonvacuous : untied line /\ filled (kinds line) [2] [2; 3] /\ has_values line [2; 3] [0; 1] [2 * 0 + 3; 2 * 1 + 3] /\ Forall (fun e => 0 < e) [1; 2].
Proof.
  split; [repeat constructor|]. split; [unfold kinds; cbn; repeat constructor|]. split; [repeat constructor|].
  repeat constructor; lra.
Qed.

(* ---------- C105: priors and posteriors ---------- *)
Theorem C105_prior : forall md priors t0 ds,
  List.length t0 = List.length (prior_names md) -> prior_values priors (prior_names md) t0 (map Some ds) -> all_pos ds ->
  exists v, set_logprior md priors t0 false = Ok v /\ set_logprior md priors t0 true = Ok (- v) /\ exp v = product ds.
Proof. exact prior_product. Qed.
Print Assumptions C105_prior.
Theorem C105_prior_outside : forall md priors t0 ds,
  List.length t0 = List.length (prior_names md) -> prior_values priors (prior_names md) t0 ds -> Exists outside ds ->
  set_logprior md priors t0 false = Ok (- 10 ^ 16).
Proof. exact prior_outside. Qed.
Print Assumptions C105_prior_outside.
Theorem C105_prior_number : forall md priors t0 neg,
  List.length t0 <> List.length (prior_names md) -> set_logprior md priors t0 neg = Err IncorrectParameterError.
Proof. exact prior_wrong_number. Qed.
Print Assumptions C105_prior_number.
Theorem C105_prior_missing : forall md priors t0 neg name,
  List.length t0 = List.length (prior_names md) -> In name (prior_names md) -> priors name = None ->
  set_logprior md priors t0 neg = Err KeyError.
Proof. exact prior_missing. Qed.
Print Assumptions C105_prior_missing.
Theorem C105_undefined : forall like prior t0 neg,
  logposterior None like t0 neg = Err PriorUndefinedError /\ logposterior (Some prior) None t0 neg = Err LikelihoodUndefinedError.
Proof. exact posterior_errors. Qed.
Print Assumptions C105_undefined.
Theorem C105_not_given : forall m gammaln md x y yerr t0 neg,
  psd_posterior m md x y None t0 neg = Err PriorUndefinedError /\ poisson_posterior gammaln md x y None t0 neg = Err PriorUndefinedError /\
  gaussian_posterior md x y yerr None t0 neg = Err PriorUndefinedError /\ laplace_posterior md x y yerr None t0 neg = Err PriorUndefinedError.
Proof. exact prior_not_given. Qed.
Print Assumptions C105_not_given.
Theorem C105_tied_values : forall ps pars r,
  fitter_to_model_params ps pars = Ok r -> exists vals, List.length vals = List.length ps /\ List.length r = List.length ps /\
  forall i p, nth_error ps i = Some p -> match p_tied p with
    | None => nth_error r i = nth_error vals i
    | Some f => nth_error vals i = Some (p_value p) /\ nth_error r i = Some (f vals) end.
Proof. exact tied_values. Qed.
Print Assumptions C105_tied_values.
Theorem C105_sum : forall (prior like : list R -> bool -> result R) t0 p l,
  prior t0 false = Ok p -> like t0 false = Ok l -> - 10 ^ 16 + 2 * 10 ^ 11 <= p ->
  logposterior (Some prior) (Some like) t0 false = Ok (p + l) /\ logposterior (Some prior) (Some like) t0 true = Ok (- (p + l)).
Proof. exact posterior_sum. Qed.
Print Assumptions C105_sum.
Theorem C105_excluded : forall (prior like : list R -> bool -> result R) t0 l,
  prior t0 false = Ok (- 10 ^ 16) -> like t0 false = Ok l ->
  logposterior (Some prior) (Some like) t0 false = Ok (- 10 ^ 16) /\ logposterior (Some prior) (Some like) t0 true = Ok (10 ^ 16).
Proof. exact posterior_excluded. Qed.
Print Assumptions C105_excluded.
Theorem C105_psd : forall md x y pars theta mus priors ds,
  untied md -> filled (kinds md) pars theta -> has_values md theta x mus -> List.length y = List.length x -> all_pos mus ->
  prior_values priors (prior_names md) pars (map Some ds) -> all_pos ds -> - 10 ^ 16 + 2 * 10 ^ 11 <= ln (product ds) ->
  exists v, psd_posterior (MScalar 1) md x y (Some priors) pars false = Ok v /\ psd_posterior (MScalar 1) md x y (Some priors) pars true = Ok (- v) /\
    exp v = product ds * product (map2 exponential_density mus y).
Proof. exact psd_posterior_product. Qed.
Print Assumptions C105_psd.
Theorem C105_gaussian : forall md x y yerr pars theta mus priors ds,
  untied md -> filled (kinds md) pars theta -> has_values md theta x mus -> List.length y = List.length x -> List.length yerr = List.length x -> all_pos yerr ->
  prior_values priors (prior_names md) pars (map Some ds) -> all_pos ds -> - 10 ^ 16 + 2 * 10 ^ 11 <= ln (product ds) ->
  exists v, gaussian_posterior md x y yerr (Some priors) pars false = Ok v /\ gaussian_posterior md x y yerr (Some priors) pars true = Ok (- v) /\
    exp v = product ds * product (map3 normal_density mus yerr y).
Proof. exact gaussian_posterior_product. Qed.
Print Assumptions C105_gaussian.
Theorem C105_poisson : forall gammaln md x ks pars theta mus priors ds,
  (forall k : nat, gammaln (INR k + 1) = ln (INR (fact k))) ->
  untied md -> filled (kinds md) pars theta -> has_values md theta x mus -> List.length ks = List.length x -> all_pos mus ->
  prior_values priors (prior_names md) pars (map Some ds) -> all_pos ds -> - 10 ^ 16 + 2 * 10 ^ 11 <= ln (product ds) ->
  exists v, poisson_posterior gammaln md x (map INR ks) (Some priors) pars false = Ok v /\ poisson_posterior gammaln md x (map INR ks) (Some priors) pars true = Ok (- v) /\
    exp v = product ds * product (map2 poisson_probability mus ks).
Proof. exact poisson_posterior_product. Qed.
Print Assumptions C105_poisson.
Theorem C105_laplace : forall md x y yerr pars theta mus priors ds,
  untied md -> filled (kinds md) pars theta -> has_values md theta x mus -> List.length y = List.length x -> List.length yerr = List.length x -> all_pos yerr ->
  prior_values priors (prior_names md) pars (map Some ds) -> all_pos ds -> - 10 ^ 16 + 2 * 10 ^ 11 <= ln (product ds) ->
  exists v, laplace_posterior md x y yerr (Some priors) pars false = Ok v /\ laplace_posterior md x y yerr (Some priors) pars true = Ok (- v) /\
    exp v = product ds * product (map3 laplace_density_of_scale mus yerr y).
Proof. exact laplace_posterior_product. Qed.
Print Assumptions C105_laplace.
Theorem C105_psd_excluded : forall md m x y pars priors ds l,
  List.length pars = List.length (prior_names md) -> prior_values priors (prior_names md) pars ds -> Exists outside ds ->
  psd_evaluate m md x y pars false = Ok l ->
  psd_posterior m md x y (Some priors) pars false = Ok (- 10 ^ 16).
Proof. exact psd_posterior_excluded. Qed.
Print Assumptions C105_psd_excluded.
Theorem C105_tied_error : forall md p m x y yerr priors t0 neg,
  In p (m_params md) -> p_fixed p = false -> p_tied p <> None -> (forall n, In n (prior_names md) -> priors n <> None) ->
  psd_posterior m md x y (Some priors) t0 neg = Err IncorrectParameterError /\ laplace_posterior md x y yerr (Some priors) t0 neg = Err IncorrectParameterError.
Proof. exact tied_error. Qed.
Print Assumptions C105_tied_error.
Theorem C105_tied_refuted : 
  exists md m x y priors,
  List.length (filter is_free (m_params md)) = 2%nat /\ (forall n, In n (prior_names md) -> priors n = Some flat_prior) /\
  (forall theta, Forall (fun xi => m_eval md theta xi <> None) x) /\ List.length y = List.length x /\
  forall t0 v, psd_posterior m md x y (Some priors) t0 false <> Ok v.
Proof. exact tied_posterior_refuted. Qed.
Print Assumptions C105_tied_refuted.
Theorem C105_alignment_refuted : 
  exists md priors t0 theta v c,
  nth_error (map p_name (m_params md)) c = Some "c"%string /\ In "c"%string (prior_names md) /\
  fitter_to_model_params (m_params md) t0 = Ok theta /\ priors "c"%string = Some prior_at_three /\ nth_error theta c = Some 2 /\ prior_at_three 2 = Some 0 /\
  set_logprior md priors t0 false = Ok v /\ v = 0.
Proof. exact tied_alignment_refuted. Qed.
Print Assumptions C105_alignment_refuted.

(* the fixed offset has no prior *)
Example C105_nonvacuous : prior_names line = ["slope"%string] /\
  prior_values (fun n => if String.eqb n "slope" then Some (fun t => Some (t / 4)) else None) ["slope"%string] [2] (map Some [2 / 4]) /\ all_pos [2 / 4] /\
  - 10 ^ 16 + 2 * 10 ^ 11 <= ln (product [1]).
Proof.
  split; [reflexivity|]. split. { constructor; [|constructor]. exists (fun t => Some (t / 4)). split; reflexivity. }
  split; [constructor; [lra|constructor]|]. cbn [product fold_right]. rewrite Rmult_1_l, ln_1. lra.
Qed.

