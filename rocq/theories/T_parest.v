(* T_parest.v: property theorems about parameter estimation (C106, C107, C108, C109, C110). *)
From Coq Require Import String.
From Verif Require Import Np M_utils Cplx M_posterior M_parest S_parest P_posterior P_posterior2 P_parest P_parest2.
From Coq Require Import Reals List Bool Arith Lra Lia Permutation Sorted.
Import ListNotations.
Open Scope R_scope.

(* ---------- C106: criteria and statistics of a fit ---------- *)
Theorem C106_criteria_likelihood : forall l p_opt nx,
  (1 <= nx)%nat ->
  compute_criteria OfLogLikelihood (- l) p_opt nx = Ok (- 2 * l, - l + 2 * INR (List.length p_opt), Some (- l + INR (List.length p_opt) * ln (INR nx))).
Proof. exact criteria_likelihood. Qed.
Print Assumptions C106_criteria_likelihood.
Theorem C106_criteria_posterior : forall like l res p_opt nx,
  (1 <= nx)%nat -> like p_opt false = Ok l ->
  compute_criteria (OfPosterior like) res p_opt nx = Ok (- 2 * l, res + 2 * INR (List.length p_opt), Some (res + INR (List.length p_opt) * ln (INR nx))).
Proof. exact criteria_posterior. Qed.
Print Assumptions C106_criteria_posterior.
Theorem C106_aic_refuted : 
  exists l p_opt nx deviance aic bic, (1 <= nx)%nat /\ compute_criteria OfLogLikelihood (- l) p_opt nx = Ok (deviance, aic, Some bic) /\
  aic <> - 2 * l + 2 * INR (List.length p_opt) /\ bic <> - 2 * l + INR (List.length p_opt) * ln (INR nx).
Proof. exact aic_refuted. Qed.
Print Assumptions C106_aic_refuted.
Theorem C106_preference_refuted : 
  exists l1 l2 p1 p2 nx d1 a1 b1 d2 a2 b2, (1 <= nx)%nat /\
  compute_criteria OfLogLikelihood (- l1) p1 nx = Ok (d1, a1, b1) /\ compute_criteria OfLogLikelihood (- l2) p2 nx = Ok (d2, a2, b2) /\
  - 2 * l2 + 2 * INR (List.length p2) < - 2 * l1 + 2 * INR (List.length p1) /\ a1 < a2.
Proof. exact aic_preference_refuted. Qed.
Print Assumptions C106_preference_refuted.
Theorem C106_sign_refuted : 
  exists l p_opt nx deviance aic bic, compute_criteria OfLogLikelihood l p_opt nx = Ok (deviance, aic, bic) /\ deviance <> - 2 * l.
Proof. exact deviance_sign_refuted. Qed.
Print Assumptions C106_sign_refuted.
Theorem C106_merit : forall y,
  forall mfit, List.length mfit = List.length y -> Forall (fun m => m <> 0) mfit -> forall p_opt,
  exists v, s_merit (compute_statistics y mfit p_opt) = Some v /\ v = rlsum (map (fun q => ((fst q - snd q) / snd q) ^ 2) (combine y mfit)) /\ 0 <= v /\ (v = 0 <-> y = mfit).
Proof. exact merit_value. Qed.
Print Assumptions C106_merit.
Theorem C106_statistics : forall y mfit p_opt,
  let s := compute_statistics y mfit p_opt in
  s_dof s = INR (List.length y) - INR (List.length p_opt) /\ s_sexp s = 2 * INR (List.length p_opt) * INR (List.length y) /\ s_ssd s = sqrt (2 * s_sexp s).
Proof. exact statistics_values. Qed.
Print Assumptions C106_statistics.
Theorem C106_residuals : forall y,
  forall mfit p_opt, List.length mfit = List.length y -> s_sobs (compute_statistics y mfit p_opt) = rlsum y - rlsum mfit.
Proof. exact sobs_value. Qed.
Print Assumptions C106_residuals.

Example C106_nonvacuous : Forall (fun m => m <> 0) [1; 2] /\ [1; 3] <> [1; 2] /\ s_sobs (compute_statistics [1; 3] [1; 2] [5]) = 1 /\ s_sexp (compute_statistics [1; 3] [1; 2] [5]) = 4.
Proof. split; [repeat constructor; lra|]. split; [intros [= H]; lra|]. split; cbn; lra. Qed.

(* ---------- C107: the loop of fit ---------- *)
Theorem C107_kept : forall npar t0 outcome k,
  List.length t0 = npar ->
  (fit npar t0 outcome = Ok k <-> (k <= 20)%nat /\ acceptable (outcome k) /\ forall j, (j < k)%nat -> ~ acceptable (outcome j)).
Proof. exact fit_kept. Qed.
Print Assumptions C107_kept.
Theorem C107_failed : forall npar t0 outcome,
  List.length t0 = npar -> (forall j, (j <= 20)%nat -> ~ acceptable (outcome j)) -> fit npar t0 outcome = Err RuntimeError.
Proof. exact fit_failed. Qed.
Print Assumptions C107_failed.
Theorem C107_total : forall npar t0 outcome,
  (exists k, fit npar t0 outcome = Ok k) \/ fit npar t0 outcome = Err RuntimeError \/ (fit npar t0 outcome = Err ValueError /\ List.length t0 <> npar).
Proof. exact fit_total. Qed.
Print Assumptions C107_total.
Theorem C107_failure_refuted : 
  exists npar t0 (posterior : nat -> R), List.length t0 = npar /\ (forall j, posterior j = - 10 ^ 16) /\ fit npar t0 (fun j => Some (- posterior j)) = Ok 0%nat.
Proof. exact fit_failure_refuted. Qed.
Print Assumptions C107_failure_refuted.
Theorem C107_bounds : forall method bounds,
  use_bounds method bounds = true <-> (In method bounded_methods /\ Forall (fun b => b = (None, None)) bounds).
Proof. exact bounds_used_iff. Qed.
Print Assumptions C107_bounds.
Theorem C107_bounds_methods : forall method,
  (In method ["L-BFGS-B"; "TNC"; "SLSQP"]%string <-> use_bounds method [] = true) /\
  forall b bounds, b <> (None, None) -> use_bounds method (b :: bounds) = false.
Proof. exact bounds_methods. Qed.
Print Assumptions C107_bounds_methods.
Theorem C107_bounds_refuted : 
  exists method bounds, In method bounded_methods /\ In (Some 0, Some 1) bounds /\ use_bounds method bounds = false.
Proof. exact bounds_refuted. Qed.
Print Assumptions C107_bounds_refuted.

(* two runs fail, the third one is kept *)
Definition third_run (j : nat) : option R := match j with O => None | 1%nat => Some (- 10 ^ 16) | _ => Some 5 end.
Example C107_nonvacuous : fit 1 [1] third_run = Ok 2%nat /\ fit 1 [1] (fun _ => Some 100) = Err RuntimeError.
Proof.
  split.
  - apply fit_kept; [reflexivity|]. split; [lia|]. split.
    + cbn [acceptable third_run]. rewrite !Rabs_right by lra. repeat split; lra.
    + intros [|[|j]] J; [cbn; tauto| |lia]. cbn [acceptable third_run]. intros (_ & _ & _ & H & _).
      replace (- 10 ^ 16 + 10 ^ 16) with 0 in H by lra. rewrite Rabs_R0 in H. lra.
  - apply fit_failed; [reflexivity|]. intros j J (_ & H & _). apply H; reflexivity.
Qed.

(* ---------- C108: likelihood ratios, p-values and simulations ---------- *)
Theorem C108_lrt : forall l1 l2 p1 p2 nx d1 a1 b1 d2 a2 b2,
  compute_criteria OfLogLikelihood (- l1) p1 nx = Ok (d1, a1, b1) -> compute_criteria OfLogLikelihood (- l2) p2 nx = Ok (d2, a2, b2) ->
  compute_lrt d1 d2 = 2 * (l2 - l1).
Proof. exact lrt_value. Qed.
Print Assumptions C108_lrt.
Theorem C108_pvalue : forall obs sim k,
  sim <> [] -> above obs sim k -> compute_pvalue obs sim = Ok (INR k / INR (List.length sim)).
Proof. exact pvalue_above. Qed.
Print Assumptions C108_pvalue.
Theorem C108_pvalue_range : forall obs sim,
  sim <> [] -> exists p, compute_pvalue obs sim = Ok p /\ 0 <= p <= 1.
Proof. exact pvalue_range. Qed.
Print Assumptions C108_pvalue_range.
Theorem C108_pvalue_monotone : forall obs1 obs2 sim p1 p2,
  obs1 <= obs2 -> compute_pvalue obs1 sim = Ok p1 -> compute_pvalue obs2 sim = Ok p2 -> p2 <= p1.
Proof. exact pvalue_monotone. Qed.
Print Assumptions C108_pvalue_monotone.
Theorem C108_empty_error : forall obs,
  compute_pvalue obs [] = Err ZeroDivisionError.
Proof. exact pvalue_empty. Qed.
Print Assumptions C108_empty_error.
Theorem C108_simulations : forall (A : Type) (statistic : A -> result R) s_all sims,
  Forall2 (fun s v => statistic s = Ok v) s_all sims -> simulate statistic s_all = Ok sims.
Proof. exact @simulate_ok. Qed.
Print Assumptions C108_simulations.
Theorem C108_simulation_error : forall (A : Type) (statistic : A -> result R) before s after sims e,
  Forall2 (fun t v => statistic t = Ok v) before sims -> statistic s = Err e -> e <> RuntimeError -> simulate statistic (before ++ s :: after) = Err e.
Proof. exact @simulate_error. Qed.
Print Assumptions C108_simulation_error.
Theorem C108_failed_refuted : 
  exists (statistic : nat -> result R) s_all sims good obs,
  (forall s, statistic s = Err RuntimeError \/ exists v, statistic s = Ok v) /\ simulate statistic s_all = Ok sims /\
  Forall2 (fun s v => statistic s = Ok v) (filter (succeeds statistic) s_all) good /\ compute_pvalue obs sims <> compute_pvalue obs good.
Proof. exact simulate_failed_refuted. Qed.
Print Assumptions C108_failed_refuted.
Theorem C108_powers : forall m,
  m <> 0 -> forall model chisq, List.length chisq = List.length model -> Forall (fun s => s <> 0) model ->
  map (fun q => 2 * m * (fst q / snd q)) (combine (generate_data m model chisq) model) = chisq.
Proof. exact generate_data_ratio. Qed.
Print Assumptions C108_powers.

Example C108_nonvacuous : above 3 [1; 3; 4; 5] 2 /\ compute_pvalue 3 [1; 3; 4; 5] = Ok (INR 2 / INR 4).
Proof.
  assert (A : above 3 [1; 3; 4; 5] 2).
  { apply above_no; [lra|]. apply above_no; [lra|]. apply above_yes; [lra|]. apply above_yes; [lra|]. constructor. }
  split; [exact A|]. apply (pvalue_above 3 [1; 3; 4; 5] 2); [discriminate|exact A].
Qed.

(* ---------- C109: highest outliers ---------- *)
Theorem C109_highest : forall x y mfit n,
  List.length y = List.length x -> List.length mfit = List.length x -> (1 <= n <= List.length x)%nat ->
  exists top places, compute_highest_outlier x y mfit n = Ok (top, places) /\ largest (ratios y mfit) top n /\ Forall2 (at_place x y mfit) top places.
Proof. exact highest_outliers. Qed.
Print Assumptions C109_highest.
Theorem C109_one : forall x y mfit,
  List.length y = List.length x -> List.length mfit = List.length x -> x <> [] ->
  exists t xi i, compute_highest_outlier x y mfit 1 = Ok ([t], [(xi, i)]) /\ at_place x y mfit t (xi, i) /\ forall r, In r (ratios y mfit) -> r <= t.
Proof. exact highest_outlier_one. Qed.
Print Assumptions C109_one.
Theorem C109_distinct : forall x y mfit n top places,
  List.length y = List.length x -> List.length mfit = List.length x -> (1 <= n <= List.length x)%nat ->
  NoDup (ratios y mfit) -> compute_highest_outlier x y mfit n = Ok (top, places) -> NoDup (map snd places).
Proof. exact outlier_places_distinct. Qed.
Print Assumptions C109_distinct.
Theorem C109_all : forall x y mfit,
  compute_highest_outlier x y mfit 0 = compute_highest_outlier x y mfit (List.length (ratios y mfit)).
Proof. exact outlier_all. Qed.
Print Assumptions C109_all.
Theorem C109_absent_error : forall xdata ratio v,
  ~ In v ratio -> find_outlier xdata ratio v = Err IndexError.
Proof. exact outlier_absent. Qed.
Print Assumptions C109_absent_error.
Theorem C109_ties_refuted : 
  exists x y mfit top places, List.length y = List.length x /\ List.length mfit = List.length x /\
  compute_highest_outlier x y mfit 2 = Ok (top, places) /\ ~ NoDup (map snd places).
Proof. exact outlier_ties_refuted. Qed.
Print Assumptions C109_ties_refuted.

Example C109_nonvacuous : (1 <= 2 <= List.length [1; 2; 3])%nat /\ ratios [1; 4; 2] [1; 1; 1] = [2 * 1 / 1; 2 * 4 / 1; 2 * 2 / 1] /\ NoDup [2 * 1 / 1; 2 * 4 / 1; 2 * 2 / 1].
Proof.
  split; [cbn; lia|]. split; [reflexivity|]. repeat constructor; cbn; intros H; repeat (destruct H as [H|H]; [lra|]); exact H.
Qed.

(* ---------- C110: the convergence criterion ---------- *)
Theorem C110_value : forall n chain,
  (1 <= n)%nat -> chain <> [] -> Forall (fun row => List.length row = n) chain ->
  compute_rhat n chain = (INR n - 1) / INR n * average (map within chain) +
    sum_squares (average (map average chain)) (map average chain) / (INR (List.length chain) - 1).
Proof. exact rhat_value. Qed.
Print Assumptions C110_value.
Theorem C110_affine : forall a b n chain,
  (1 <= n)%nat -> chain <> [] -> Forall (fun row => List.length row = n) chain ->
  compute_rhat n (map (map (fun v => a * v + b)) chain) = a ^ 2 * compute_rhat n chain.
Proof. exact rhat_affine. Qed.
Print Assumptions C110_affine.
Theorem C110_same : forall n k row,
  (1 <= n)%nat -> List.length row = n -> (2 <= k)%nat ->
  compute_rhat n (repeat row k) = (INR n - 1) / INR n * within row.
Proof. exact rhat_same. Qed.
Print Assumptions C110_same.
Theorem C110_scale_refuted : 
  exists n chain a, (2 <= n)%nat /\ (2 <= List.length chain)%nat /\ Forall (fun row => List.length row = n) chain /\ a <> 0 /\
  compute_rhat n (map (map (fun v => a * v + 0)) chain) <> compute_rhat n chain.
Proof. exact rhat_scale_refuted. Qed.
Print Assumptions C110_scale_refuted.

Example C110_nonvacuous : (1 <= 2)%nat /\ Forall (fun row => List.length row = 2%nat) [[0; 2]; [1; 3]] /\ within [0; 2] = 1.
Proof. split; [lia|]. split; [repeat constructor|]. unfold within, sum_squares, average. cbn. lra. Qed.

