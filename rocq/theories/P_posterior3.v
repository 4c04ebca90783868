(* P_posterior3.v: priors and posteriors of M_posterior *)
From Coq Require Import String.
From Verif Require M_zhang P_zhang3.
From Verif Require Import Np M_utils Cplx M_posterior S_posterior P_posterior P_posterior2.
From Coq Require Import Reals List Bool Arith Lra Lia.
Import ListNotations.
Open Scope R_scope.

(* the names of the parameters that are not fixed, in the order of the model *)
Definition prior_names (md : astromodel) : list string := map fst (filter (fun q => negb (snd q)) (map (fun p => (p_name p, p_fixed p)) (m_params md))).
(* the priors have the densities ds (None: not finite) at the values t0 *)
Definition prior_values (priors : string -> option (R -> option R)) (names : list string) (t0 : list R) (ds : list (option R)) : Prop :=
  Forall2 (fun nt d => exists f, priors (fst nt) = Some f /\ f (snd nt) = d) (combine names t0) ds.
Lemma names_count md : List.length (prior_names md) = npar_not_fixed md.
Proof.
  unfold prior_names, npar_not_fixed, not_fixed. rewrite map_length. induction (m_params md) as [|p ps IH]; [reflexivity|]. cbn. destruct (p_fixed p); cbn; rewrite IH; reflexivity.
Qed.
Lemma logprior_loop_sum priors ps : forall t0 ds acc,
  List.length t0 = List.length (filter not_fixed ps) ->
  prior_values priors (map fst (filter (fun q => negb (snd q)) (map (fun p => (p_name p, p_fixed p)) ps))) t0 ds ->
  logprior_loop priors ps t0 acc = Ok (fold_left (fun a d => oadd a (olog d)) ds acc).
Proof.
  induction ps as [|p ps IH]; intros t0 ds acc L V; cbn in *.
  - inversion V; reflexivity.
  - unfold not_fixed in L at 1. destruct (p_fixed p); cbn in *.
    + apply IH; assumption.
    + destruct t0 as [|t t0]; [discriminate|]. cbn in V. inversion V as [|? d ? ds' (f & F1 & F2) V']; subst. cbn in F1. rewrite F1. cbn in L. rewrite (IH t0 ds') by (assumption || lia). reflexivity.
Qed.
Lemma fold_prior ds : forall acc, all_pos ds -> fold_left (fun a d => oadd a (olog d)) (map Some ds) (Some acc) = Some (acc + rlsum (map ln ds)).
Proof.
  induction ds as [|d ds IH]; intros acc P; cbn [map fold_left].
  - f_equal. cbn. ring.
  - inversion P as [|? ? D P']; subst. unfold olog at 2. cbn [oadd opt2]. destruct (Rlt_dec 0 d); [|contradiction]. cbn [oadd opt2]. rewrite IH by assumption. cbn [map]. rewrite rlsum_cons. f_equal. ring.
Qed.
Definition outside (d : option R) : Prop := match d with Some v => v <= 0 | None => True end.
Lemma fold_prior_none ds : fold_left (fun a d => oadd a (olog d)) ds None = None.
Proof. induction ds; [reflexivity|exact IHds]. Qed.
Lemma fold_prior_outside ds : Exists outside ds -> forall acc, fold_left (fun a d => oadd a (olog d)) ds acc = None.
Proof.
  induction 1 as [d ds H|d ds H IH]; intros acc; cbn; [|apply IH].
  replace (olog d) with (@None R) by (destruct d as [v|]; [cbn in *; destruct (Rlt_dec 0 v); [lra|reflexivity]|reflexivity]).
  destruct acc; apply fold_prior_none.
Qed.
Lemma prior_product md priors t0 ds :
  List.length t0 = List.length (prior_names md) -> prior_values priors (prior_names md) t0 (map Some ds) -> all_pos ds ->
  exists v, set_logprior md priors t0 false = Ok v /\ set_logprior md priors t0 true = Ok (- v) /\ exp v = product ds.
Proof.
  intros L V P. exists (rlsum (map ln ds)). rewrite names_count in L. unfold set_logprior. rewrite L, Nat.eqb_refl. cbn [negb].
  rewrite (logprior_loop_sum priors (m_params md) t0 (map Some ds) _ L V), fold_prior by exact P. cbn [bind]. rewrite Rplus_0_l.
  split; [reflexivity|split; [reflexivity|]]. rewrite (sum_ln_product _ P). apply exp_ln, product_pos, P.
Qed.
Lemma prior_outside md priors t0 ds :
  List.length t0 = List.length (prior_names md) -> prior_values priors (prior_names md) t0 ds -> Exists outside ds ->
  set_logprior md priors t0 false = Ok (- 10 ^ 16).
Proof.
  intros L V P. rewrite names_count in L. unfold set_logprior. rewrite L, Nat.eqb_refl. cbn [negb].
  rewrite (logprior_loop_sum priors (m_params md) t0 ds _ L V), fold_prior_outside by exact P. cbn. unfold logmin. f_equal. lra.
Qed.
Lemma prior_wrong_number md priors t0 neg : List.length t0 <> List.length (prior_names md) -> set_logprior md priors t0 neg = Err IncorrectParameterError.
Proof. intros L. rewrite names_count in L. unfold set_logprior. destruct (Nat.eqb_spec (List.length t0) (npar_not_fixed md)); [contradiction|reflexivity]. Qed.
Lemma prior_missing md priors t0 neg name : List.length t0 = List.length (prior_names md) -> In name (prior_names md) -> priors name = None ->
  set_logprior md priors t0 neg = Err KeyError.
Proof.
  intros L I N. rewrite names_count in L. unfold set_logprior. rewrite L, Nat.eqb_refl. cbn [negb].
  replace (logprior_loop priors (m_params md) t0 (Some 0)) with (@Err (option R) KeyError); [reflexivity|]. symmetry.
  unfold prior_names in I. unfold npar_not_fixed in L. generalize (Some 0). revert t0 L I. induction (m_params md) as [|p ps IH]; intros t0 L I acc; cbn in *; [contradiction|].
  unfold not_fixed in L at 1. destruct (p_fixed p); cbn in *; [apply IH; assumption|].
  destruct I as [<-|I]; [rewrite N; reflexivity|]. destruct (priors (p_name p)) as [f|]; [|reflexivity]. destruct t0 as [|t t0]; [discriminate|]. apply IH; [cbn in L; lia|exact I].
Qed.

(* posteriors, for any prior and likelihood *)
Lemma posterior_errors like prior t0 neg : logposterior None like t0 neg = Err PriorUndefinedError /\ logposterior (Some prior) None t0 neg = Err LikelihoodUndefinedError.
Proof. split; reflexivity. Qed.
Lemma close_false a : - 10 ^ 16 + 2 * 10 ^ 11 <= a -> close_to a logmin = false.
Proof.
  intros H. unfold close_to, logmin. destruct (Rle_dec _ _) as [C|]; [|reflexivity]. exfalso. rewrite (Rabs_left (- 10000000000000000)) in C by lra.
  rewrite Rabs_right in C by lra. lra.
Qed.
Lemma close_true : close_to logmin logmin = true.
Proof. unfold close_to, logmin. replace (-10000000000000000 - -10000000000000000) with 0 by ring. rewrite Rabs_R0. destruct (Rle_dec _ _) as [|C]; [reflexivity|]. exfalso; apply C. rewrite (Rabs_left (- 10000000000000000)) by lra. lra. Qed.
Lemma posterior_sum (prior like : list R -> bool -> result R) t0 p l :
  prior t0 false = Ok p -> like t0 false = Ok l -> - 10 ^ 16 + 2 * 10 ^ 11 <= p ->
  logposterior (Some prior) (Some like) t0 false = Ok (p + l) /\ logposterior (Some prior) (Some like) t0 true = Ok (- (p + l)).
Proof. intros P L H. unfold logposterior. rewrite P. cbn. rewrite L. cbn. rewrite (close_false _ H). split; reflexivity. Qed.
Lemma posterior_excluded (prior like : list R -> bool -> result R) t0 l :
  prior t0 false = Ok (- 10 ^ 16) -> like t0 false = Ok l ->
  logposterior (Some prior) (Some like) t0 false = Ok (- 10 ^ 16) /\ logposterior (Some prior) (Some like) t0 true = Ok (10 ^ 16).
Proof.
  intros P L. unfold logposterior. rewrite P. cbn [bind]. rewrite L. cbn [bind]. replace (- 10 ^ 16) with logmin by (unfold logmin; lra). rewrite close_true.
  split; [reflexivity|]. unfold logmin. f_equal. lra.
Qed.
(* the posterior of a periodogram: product of the priors and of the exponential densities *)
Lemma psd_posterior_product md x y pars theta mus priors ds :
  untied md -> filled (kinds md) pars theta -> has_values md theta x mus -> List.length y = List.length x -> all_pos mus ->
  prior_values priors (prior_names md) pars (map Some ds) -> all_pos ds -> - 10 ^ 16 + 2 * 10 ^ 11 <= ln (product ds) ->
  exists v, psd_posterior (MScalar 1) md x y (Some priors) pars false = Ok v /\ psd_posterior (MScalar 1) md x y (Some priors) pars true = Ok (- v) /\
    exp v = product ds * product (map2 exponential_density mus y).
Proof.
  intros U F V L P PV D B. destruct (psd_single md x y pars theta mus U F V L P) as (l & L1 & _ & L2).
  destruct (prior_product md priors pars ds) as (p & P1 & _ & P2); [rewrite names_count; exact (filled_npar _ _ _ F)|exact PV|exact D|].
  exists (p + l). assert (Bp : - 10 ^ 16 + 2 * 10 ^ 11 <= p) by (rewrite <- (ln_exp p), P2; exact B).
  unfold psd_posterior, prior_of. cbn [option_map]. destruct (posterior_sum (set_logprior md priors) (psd_evaluate (MScalar 1) md x y) pars p l P1 L1 Bp) as [E1 E2].
  split; [exact E1|split; [exact E2|]]. rewrite exp_plus, P2, L2. reflexivity.
Qed.
Lemma gaussian_posterior_product md x y yerr pars theta mus priors ds :
  untied md -> filled (kinds md) pars theta -> has_values md theta x mus -> List.length y = List.length x -> List.length yerr = List.length x -> all_pos yerr ->
  prior_values priors (prior_names md) pars (map Some ds) -> all_pos ds -> - 10 ^ 16 + 2 * 10 ^ 11 <= ln (product ds) ->
  exists v, gaussian_posterior md x y yerr (Some priors) pars false = Ok v /\ gaussian_posterior md x y yerr (Some priors) pars true = Ok (- v) /\
    exp v = product ds * product (map3 normal_density mus yerr y).
Proof.
  intros U F V L Le P PV D B. destruct (gaussian_density md x y yerr pars theta mus U F V L Le P) as (l & L1 & _ & L2).
  destruct (prior_product md priors pars ds) as (p & P1 & _ & P2); [rewrite names_count; exact (filled_npar _ _ _ F)|exact PV|exact D|].
  exists (p + l). assert (Bp : - 10 ^ 16 + 2 * 10 ^ 11 <= p) by (rewrite <- (ln_exp p), P2; exact B).
  unfold gaussian_posterior, prior_of. cbn [option_map]. destruct (posterior_sum (set_logprior md priors) (gaussian_evaluate md x y yerr) pars p l P1 L1 Bp) as [E1 E2].
  split; [exact E1|split; [exact E2|]]. rewrite exp_plus, P2, L2. reflexivity.
Qed.
Lemma poisson_posterior_product gammaln md x ks pars theta mus priors ds :
  (forall k : nat, gammaln (INR k + 1) = ln (INR (fact k))) ->
  untied md -> filled (kinds md) pars theta -> has_values md theta x mus -> List.length ks = List.length x -> all_pos mus ->
  prior_values priors (prior_names md) pars (map Some ds) -> all_pos ds -> - 10 ^ 16 + 2 * 10 ^ 11 <= ln (product ds) ->
  exists v, poisson_posterior gammaln md x (map INR ks) (Some priors) pars false = Ok v /\ poisson_posterior gammaln md x (map INR ks) (Some priors) pars true = Ok (- v) /\
    exp v = product ds * product (map2 poisson_probability mus ks).
Proof.
  intros G U F V L P PV D B. destruct (poisson_density gammaln G md x ks pars theta mus U F V L P) as (l & L1 & _ & L2).
  destruct (prior_product md priors pars ds) as (p & P1 & _ & P2); [rewrite names_count; exact (filled_npar _ _ _ F)|exact PV|exact D|].
  exists (p + l). assert (Bp : - 10 ^ 16 + 2 * 10 ^ 11 <= p) by (rewrite <- (ln_exp p), P2; exact B).
  unfold poisson_posterior, prior_of. cbn [option_map]. destruct (posterior_sum (set_logprior md priors) (poisson_evaluate gammaln md x (map INR ks)) pars p l P1 L1 Bp) as [E1 E2].
  split; [exact E1|split; [exact E2|]]. rewrite exp_plus, P2, L2. reflexivity.
Qed.
Lemma laplace_posterior_product md x y yerr pars theta mus priors ds :
  untied md -> filled (kinds md) pars theta -> has_values md theta x mus -> List.length y = List.length x -> List.length yerr = List.length x -> all_pos yerr ->
  prior_values priors (prior_names md) pars (map Some ds) -> all_pos ds -> - 10 ^ 16 + 2 * 10 ^ 11 <= ln (product ds) ->
  exists v, laplace_posterior md x y yerr (Some priors) pars false = Ok v /\ laplace_posterior md x y yerr (Some priors) pars true = Ok (- v) /\
    exp v = product ds * product (map3 laplace_density_of_scale mus yerr y).
Proof.
  intros U F V L Le P PV D B. destruct (laplace_density_scale md x y yerr pars theta mus U F V L Le P) as (l & L1 & _ & L2).
  destruct (prior_product md priors pars ds) as (p & P1 & _ & P2); [rewrite names_count; exact (filled_npar _ _ _ F)|exact PV|exact D|].
  exists (p + l). assert (Bp : - 10 ^ 16 + 2 * 10 ^ 11 <= p) by (rewrite <- (ln_exp p), P2; exact B).
  unfold laplace_posterior, prior_of. cbn [option_map]. destruct (posterior_sum (set_logprior md priors) (laplace_evaluate md x y yerr) pars p l P1 L1 Bp) as [E1 E2].
  split; [exact E1|split; [exact E2|]]. rewrite exp_plus, P2, L2. reflexivity.
Qed.
(* values excluded by a prior keep the lowest value whatever the data *)
Lemma psd_posterior_excluded md m x y pars priors ds l :
  List.length pars = List.length (prior_names md) -> prior_values priors (prior_names md) pars ds -> Exists outside ds ->
  psd_evaluate m md x y pars false = Ok l ->
  psd_posterior m md x y (Some priors) pars false = Ok (- 10 ^ 16).
Proof.
  intros L V E Q. unfold psd_posterior, prior_of. cbn [option_map].
  exact (proj1 (posterior_excluded (set_logprior md priors) (psd_evaluate m md x y) pars l (prior_outside md priors pars ds L V E) Q)).
Qed.

(* tied parameters *)
Lemma free_not_fixed p : is_free p = true -> not_fixed p = true.
Proof. unfold is_free, not_fixed. destruct (p_fixed p), (is_tied p); intros H; discriminate || reflexivity. Qed.
Lemma free_le ps : (List.length (filter is_free ps) <= List.length (filter not_fixed ps))%nat.
Proof.
  induction ps as [|q ps IH]; [cbn; lia|]. cbn [filter]. pose proof (free_not_fixed q) as H.
  destruct (is_free q); [rewrite H by reflexivity; cbn [List.length]; lia|]. destruct (not_fixed q); cbn [List.length]; lia.
Qed.
Lemma npar_tied ps p : In p ps -> p_fixed p = false -> p_tied p <> None -> (List.length (filter is_free ps) < List.length (filter not_fixed ps))%nat.
Proof.
  induction ps as [|q ps IH]; intros I Fx T; [destruct I|]. destruct I as [->|I].
  - cbn [filter]. replace (is_free p) with false by (unfold is_free, is_tied; destruct (p_tied p); [destruct (p_fixed p); reflexivity|contradiction T; reflexivity]).
    unfold not_fixed at 1. rewrite Fx. cbn [negb List.length]. pose proof (free_le ps). lia.
  - specialize (IH I Fx T). cbn [filter]. pose proof (free_not_fixed q) as H.
    destruct (is_free q); [rewrite H by reflexivity; cbn [List.length]; lia|]. destruct (not_fixed q); cbn [List.length]; lia.
Qed.
Lemma tied_error md p m x y yerr priors t0 neg :
  In p (m_params md) -> p_fixed p = false -> p_tied p <> None -> (forall n, In n (prior_names md) -> priors n <> None) ->
  psd_posterior m md x y (Some priors) t0 neg = Err IncorrectParameterError /\ laplace_posterior md x y yerr (Some priors) t0 neg = Err IncorrectParameterError.
Proof.
  intros I Fx T HP. pose proof (npar_tied _ _ I Fx T) as N. unfold psd_posterior, laplace_posterior, logposterior, prior_of. cbn [option_map].
  destruct (Nat.eq_dec (List.length t0) (npar_not_fixed md)) as [E|E].
  2:{ rewrite !prior_wrong_number by (rewrite names_count; exact E). split; reflexivity. }
  assert (G : exists v, logprior_loop priors (m_params md) t0 (Some 0) = Ok v).
  { clear N. unfold prior_names in HP. unfold npar_not_fixed in E. generalize (Some 0). revert t0 E HP. clear I. induction (m_params md) as [|q ps IH]; intros t0 E HP acc; cbn in *; [eexists; reflexivity|].
    unfold not_fixed in E at 1. destruct (p_fixed q); cbn in *; [apply IH; assumption|]. specialize (HP (p_name q) (or_introl eq_refl)) as Q.
    destruct (priors (p_name q)) as [f|]; [|contradiction Q; reflexivity]. destruct t0 as [|t t0]; [discriminate|]. apply IH; [cbn in E; lia|]. intros n Hn; apply HP; right; exact Hn. }
  destruct G as [v G]. unfold set_logprior. rewrite E, Nat.eqb_refl. cbn [negb]. rewrite G. cbn [bind].
  unfold psd_evaluate, laplace_evaluate. rewrite !evaluate_with_wrong; [split; reflexivity| |]; unfold npar_not_fixed, npar_free in *; lia.
Qed.
(* a model with the free parameters a and c, and b tied to 2 * a *)
Definition tied_model : astromodel :=
  mkModel [mkParam "a" 1 false None; mkParam "b" 2 false (Some (fun th => 2 * nth 0 th 0)); mkParam "c" 1 false None] (fun th _ => Some (nth 0 th 0 + nth 2 th 0)).
Definition flat_prior : R -> option R := fun _ => Some 1.
Lemma tied_posterior_refuted : exists md m x y priors,
  List.length (filter is_free (m_params md)) = 2%nat /\ (forall n, In n (prior_names md) -> priors n = Some flat_prior) /\
  (forall theta, Forall (fun xi => m_eval md theta xi <> None) x) /\ List.length y = List.length x /\
  forall t0 v, psd_posterior m md x y (Some priors) t0 false <> Ok v.
Proof.
  exists tied_model, (MScalar 1), [0], [1], (fun _ => Some flat_prior). split; [reflexivity|]. split; [reflexivity|]. split; [|split; [reflexivity|]].
  - intros theta. constructor; [discriminate|constructor].
  - intros t0 v E. rewrite (proj1 (tied_error tied_model (mkParam "b" 2 false (Some (fun th => 2 * nth 0 th 0))) (MScalar 1) [0] [1] [1] (fun _ => Some flat_prior) t0 false
      (or_intror (or_introl eq_refl)) eq_refl ltac:(discriminate) ltac:(discriminate))) in E. discriminate E.
Qed.
(* the Gaussian posterior of that model takes three values, gives the third one to the prior of c and the second one to c itself *)
Definition prior_at_three : R -> option R := fun t => if Req_EM_T t 3 then Some 1 else Some 0.
Lemma tied_alignment_refuted : exists md priors t0 theta v c,
  nth_error (map p_name (m_params md)) c = Some "c"%string /\ In "c"%string (prior_names md) /\
  fitter_to_model_params (m_params md) t0 = Ok theta /\ priors "c"%string = Some prior_at_three /\ nth_error theta c = Some 2 /\ prior_at_three 2 = Some 0 /\
  set_logprior md priors t0 false = Ok v /\ v = 0.
Proof.
  exists tied_model, (fun n => if String.eqb n "c" then Some prior_at_three else Some flat_prior), [1; 2; 3], [1; 2 * 1; 2], (0 + ln 1 + ln 1 + ln 1), 2%nat.
  split; [reflexivity|]. split; [cbn; tauto|]. split; [reflexivity|]. split; [reflexivity|]. split; [reflexivity|]. split; [unfold prior_at_three; destruct (Req_EM_T 2 3); [lra|reflexivity]|].
  split; [|rewrite ln_1; ring]. unfold set_logprior. cbn. unfold prior_at_three, flat_prior. destruct (Req_EM_T 3 3) as [_|N]; [|contradiction N; reflexivity]. cbn.
  destruct (Rlt_dec 0 1) as [_|N]; [|lra]. reflexivity.
Qed.
(* likelihoods: number of parameters *)
Lemma likelihood_wrong_number gammaln md m x y yerr pars neg : untied md -> List.length pars <> List.length (prior_names md) ->
  gaussian_evaluate md x y yerr pars neg = Err IncorrectParameterError /\ poisson_evaluate gammaln md x y pars neg = Err IncorrectParameterError /\
  psd_evaluate m md x y pars neg = Err IncorrectParameterError /\ laplace_evaluate md x y yerr pars neg = Err IncorrectParameterError.
Proof.
  intros U L. rewrite names_count in L. unfold gaussian_evaluate, poisson_evaluate, psd_evaluate, laplace_evaluate. rewrite (npar_untied _ U).
  rewrite !evaluate_with_wrong by exact L. repeat split.
Qed.
(* a Poisson model with rate 0 where nothing was counted: the probability is 1, the result the lowest value *)
Lemma poisson_zero_refuted : exists gammaln md x ks pars theta mus v,
  (forall k : nat, gammaln (INR k + 1) = ln (INR (fact k))) /\ untied md /\ filled (kinds md) pars theta /\ has_values md theta x mus /\ List.length ks = List.length x /\ Forall (fun mu => 0 <= mu) mus /\
  poisson_evaluate gammaln md x (map INR ks) pars false = Ok v /\ exp v <> product (map2 poisson_probability mus ks).
Proof.
  exists (fun r => ln (INR (fact (Z.to_nat (Int_part (r - 1)))))), constant_model, [0], [0%nat], [0], [0], (map (fun _ => 0) [0]), (- 10 ^ 16).
  split. { intros k. replace (INR k + 1 - 1) with (INR k) by ring. change (Z.to_nat (Int_part (INR k))) with (M_zhang.floor_nat (INR k)). rewrite P_zhang3.floor_nat_INR. reflexivity. }
  split; [exact constant_untied|]. split; [exact (constant_filled 0)|]. split; [exact (constant_values 0 [0])|]. split; [reflexivity|]. split; [constructor; [lra|constructor]|].
  split. { apply (poisson_not_finite _ constant_model [0] (map INR [0%nat]) [0] [0] constant_untied (constant_filled 0) eq_refl). constructor. cbn. lra. }
  unfold map2, poisson_probability. cbn. rewrite Ropp_0, exp_0. replace (1 * 1 / 1 * 1) with 1 by field. pose proof (exp_increasing (- 10 ^ 16) 0 ltac:(lra)) as H. rewrite exp_0 in H.
  cbn in H. lra.
Qed.
(* likelihoods of power spectra that are not finite *)
Lemma psd_not_finite md x y pars theta m ms : untied md -> filled (kinds md) pars theta -> List.length y = List.length x -> averaged m ms -> List.length ms = List.length x ->
  (Exists (fun xi => match m_eval md theta xi with Some mu => mu <= 0 | None => True end) x \/ Exists (fun a => a <= 0) y) ->
  psd_evaluate m md x y pars false = Ok (- 10 ^ 16).
Proof.
  intros U F L A Lm B. pose proof (filled_npar _ _ _ F) as N. rewrite <- (npar_untied _ U) in N. unfold psd_evaluate.
  rewrite (evaluate_with_ok _ _ _ _ _ _ theta None N (fitter_filled _ _ _ U F)).
  - cbn. unfold logmin. f_equal. lra.
  - rewrite (averaged_loglike m ms) by (assumption || lia). f_equal. unfold psd_loglike_m.
    assert (D : In None (map (fun q => omul (Some (fst q)) (olog (snd q))) (combine (map (fun m0 => 2 * m0) (map INR ms)) (map (m_eval md theta) x))) \/
                In None (map (fun q => omul (omul (Some (fst q)) (osub (odiv (Some 2) (Some (fst q))) (Some 1))) (olog (Some (snd q)))) (combine (map (fun m0 => 2 * m0) (map INR ms)) y))).
    { destruct B as [B|B]; [left|right].
      - clear - B Lm. revert ms Lm. induction B as [xi x B|xi x B IH]; intros [|k ms] Lm; cbn in *; try discriminate.
        + left. unfold olog. destruct (m_eval md theta xi) as [mu|]; [|reflexivity]. destruct (Rlt_dec 0 mu); [lra|reflexivity].
        + right. apply IH. lia.
      - rewrite <- L in Lm. clear - B Lm. revert ms Lm. induction B as [a y B|a y B IH]; intros [|k ms] Lm; cbn in *; try discriminate.
        + left. destruct (Rlt_dec 0 a); [lra|]. destruct (Req_EM_T (2 * INR k) 0); reflexivity.
        + right. apply IH. lia. }
    destruct D as [D|D]; rewrite (osum_none _ D); [reflexivity|].
    match goal with |- oneg (oadd ?a None) = None => destruct a; reflexivity end.
Qed.
(* ---- posteriors without priors, multiplicity 0, tied parameters ---- *)
Lemma prior_not_given m gammaln md x y yerr t0 neg :
  psd_posterior m md x y None t0 neg = Err PriorUndefinedError /\ poisson_posterior gammaln md x y None t0 neg = Err PriorUndefinedError /\
  gaussian_posterior md x y yerr None t0 neg = Err PriorUndefinedError /\ laplace_posterior md x y yerr None t0 neg = Err PriorUndefinedError.
Proof. repeat split; reflexivity. Qed.
Lemma psd_zero_scalar y mm : psd_loglike (MScalar 0) y mm = Err ZeroDivisionError.
Proof. unfold psd_loglike. destruct (Req_EM_T 0 1); [lra|]. destruct (Req_EM_T 0 0); [reflexivity|lra]. Qed.
Lemma psd_zero_array ms y mm : In 0 (firstn (List.length y) ms) -> psd_loglike (MArray ms) y mm = Ok None.
Proof.
  intros H. unfold psd_loglike, psd_loglike_m. cbv zeta.
  replace (osum (map (fun q => omul (omul (Some (fst q)) (osub (odiv (Some 2) (Some (fst q))) (Some 1))) (olog (Some (snd q)))) (combine (map (fun m => 2 * m) ms) y))) with (@None R).
  - unfold oadd, opt2, oneg. destruct (match osum _ with Some _ => _ | None => _ end); reflexivity.
  - symmetry. apply osum_none. clear mm. revert y H. induction ms as [|m ms IH]; intros [|v y] H; cbn [List.length firstn] in H; try destruct H.
    + subst m. left. cbn [fst snd]. unfold odiv. destruct (Req_EM_T (2 * 0) 0); [reflexivity|lra].
    + right. now apply IH.
Qed.
Lemma set_free_length ps pars vals : set_free ps pars = Ok vals -> List.length vals = List.length ps /\ forall i p, nth_error ps i = Some p -> is_free p = false -> nth_error vals i = Some (p_value p).
Proof.
  revert pars vals. induction ps as [|p ps IH]; intros pars vals H; cbn [set_free] in H.
  - injection H as <-. split; [reflexivity|]. intros [|i] q E; discriminate E.
  - destruct (is_free p) eqn:F.
    + destruct pars as [|v pars]; [discriminate H|]. destruct (set_free ps pars) as [r|] eqn:S; [|discriminate H]. cbn [bind] in H. apply (f_equal (fun z => match z with Ok a => a | Err _ => [] end)) in H. rewrite <- H.
      destruct (IH _ _ S) as [L K]. split; [cbn; congruence|]. intros [|i] q E N; cbn [nth_error] in *; [injection E as <-; congruence|now apply K].
    + destruct (set_free ps pars) as [r|] eqn:S; [|discriminate H]. cbn [bind] in H. apply (f_equal (fun z => match z with Ok a => a | Err _ => [] end)) in H. rewrite <- H.
      destruct (IH _ _ S) as [L K]. split; [cbn; congruence|]. intros [|i] q E N; cbn [nth_error] in *; [injection E as <-; reflexivity|now apply K].
Qed.
Lemma tied_values ps pars r : fitter_to_model_params ps pars = Ok r -> exists vals, List.length vals = List.length ps /\ List.length r = List.length ps /\
  forall i p, nth_error ps i = Some p -> match p_tied p with
    | None => nth_error r i = nth_error vals i
    | Some f => nth_error vals i = Some (p_value p) /\ nth_error r i = Some (f vals) end.
Proof.
  unfold fitter_to_model_params. destruct (set_free ps pars) as [vals|] eqn:S; [|discriminate]. cbn [bind]. intros H. apply (f_equal (fun z => match z with Ok a => a | Err _ => [] end)) in H. subst r.
  destruct (set_free_length _ _ _ S) as [L K]. exists vals. split; [exact L|]. split; [rewrite map_length, combine_length; lia|]. intros i p E.
  assert (V : exists v, nth_error vals i = Some v) by (destruct (nth_error vals i) eqn:N; [eexists; reflexivity|apply nth_error_None in N; assert (nth_error ps i <> None) by congruence; apply nth_error_Some in H; lia]).
  destruct V as [v V]. assert (C : nth_error (combine ps vals) i = Some (p, v)).
  { clear -E V. revert i vals E V. induction ps as [|q ps IH]; intros [|i] [|w vals] E V; try discriminate; cbn in *; [injection E as ->; injection V as ->; reflexivity|now apply IH]. }
  rewrite nth_error_map, C. cbn [option_map fst snd]. destruct (p_tied p) as [f|] eqn:T; [|now symmetry].
  split; [apply K; [exact E|unfold is_free, is_tied; rewrite T; apply andb_false_r]|reflexivity].
Qed.
